(** What a build with overflow checks does differs from the unbounded count exactly when the
    count leaves [usize]; and without the checks nothing differs. *)
From Coq Require Import NArith List Bool Lia.
From Verif Require Import Base BaseFacts Types Platform Config Buf Parser Contract Refine.
From Verif Require Import Slices Records Sample Record Attr Views RefFrame Client Counter.
Import ListNotations.
Open Scope N_scope.

Section Basics.
Context (pl : platform) {S : Type}.

(** The count only grows; while it stays within [usize] the runs are the same, and when it does not
    the checked one has panicked. *)
Definition counts {A : Type} (m : M S A) (m' : M (S * N) A) : Prop :=
  forall p, p_off p <= p_off (snd (m p)) /\
    (p_off (snd (m p)) <= usize_max pl -> m' (counted p) = (fst (m p), counted (snd (m p)))) /\
    (p_off p <= usize_max pl -> usize_max pl < p_off (snd (m p)) -> fst (m' (counted p)) = Panic).

Lemma counts_same : forall A (m : M S A) m',
  (forall p, p_off (snd (m p)) = p_off p /\ m' (counted p) = (fst (m p), counted (snd (m p)))) -> counts m m'.
Proof. intros A m m' H p. destruct (H p) as [E1 E2]. rewrite E1. split; [lia|]. split; [auto|lia]. Qed.

Lemma counts_bind : forall A B (m : M S A) m' (k : A -> M S B) k',
  counts m m' -> (forall a, counts (k a) (k' a)) -> counts (bind m k) (bind m' k').
Proof.
  intros A B m m' k k' Hm Hk p. unfold bind. destruct (Hm p) as (H1 & H2 & H3).
  destruct (m p) as [r p1]. cbn [fst snd] in *.
  assert (G : p_off p1 <= p_off (snd (match r with Ok a => k a p1 | Err e => (Err e, p1) | Panic => (Panic, p1)
    | Fuel => (Fuel, p1) end))).
  { destruct r as [a|e| |]; cbn [snd]; try lia. apply Hk. }
  split; [lia|]. split.
  - intros Hle. rewrite H2 by lia. destruct r as [a|e| |]; try reflexivity. now apply (Hk a p1).
  - intros Hp Hgt. destruct (N.le_gt_cases (p_off p1) (usize_max pl)) as [Hle|Hgt1].
    + rewrite (H2 Hle). destruct r as [a|e| |]; cbn [snd] in Hgt; try lia. now apply (Hk a p1).
    + specialize (H3 Hp Hgt1). destruct (m' (counted p)) as [r' q]. cbn [fst] in H3. now subst r'.
Qed.

Lemma counts_lift : forall A (o : out A), counts (lift o) (lift o).
Proof. intros A o. now apply counts_same. Qed.
Lemma counts_ret : forall A (a : A), counts (ret a) (ret a).
Proof. intros A a. now apply counts_same. Qed.
Lemma counts_fail : forall A e, counts (@fail S A e) (fail e).
Proof. intros A e. now apply counts_same. Qed.
Lemma counts_panic : forall A, counts (@panic S A) panic.
Proof. intros A. now apply counts_same. Qed.
Lemma counts_cfg : counts (@get_cfg S) get_cfg.
Proof. now apply counts_same. Qed.
Lemma counts_off : counts (@get_off S) get_off.
Proof. now apply counts_same. Qed.
Lemma counts_alloc : forall n, counts (@m_alloc pl S n) (m_alloc pl n).
Proof. intros n. apply counts_same. intros p. unfold m_alloc. now destruct (isize_max pl <? n). Qed.
Lemma counts_if : forall A b (m : M S A) m', counts m m' -> counts (parse_if b m) (parse_if b m').
Proof.
  intros A [] m m' H; unfold parse_if; [|apply counts_ret]. apply counts_bind; [exact H|]. intros a. apply counts_ret.
Qed.
Lemma counts_sub : forall S2 A (m : M S2 A) q, counts (@sub S S2 A m q) (sub m q).
Proof. intros S2 A m q. apply counts_same. intros p. unfold sub. now destruct (m q) as [r q']. Qed.

Lemma counts_loop_pos : forall St B (body : St -> M S (St + B)) body' n x,
  (forall x, counts (body x) (body' x)) -> counts (loop_pos body n x) (loop_pos body' n x).
Proof.
  intros St B body body' n x H. revert x. induction n as [n IH|n IH|]; intros x; cbn [loop_pos]; [| |apply H].
  - apply counts_bind; [apply H|]. intros [y|b]; [|apply counts_ret].
    apply counts_bind; [apply IH|]. intros [z|b]; [apply IH|apply counts_ret].
  - apply counts_bind; [apply IH|]. intros [y|b]; [apply IH|apply counts_ret].
Qed.
Lemma counts_loop : forall St B (body : St -> M S (St + B)) body' x,
  (forall x, counts (body x) (body' x)) -> counts (loop body x) (loop body' x).
Proof.
  intros St B body body' x H. unfold loop. apply counts_bind; [now apply counts_loop_pos|].
  intros [y|b]; [apply counts_lift|apply counts_ret].
Qed.
End Basics.

(** Binds, branches and loops in step. *)
Ltac count :=
  cbv zeta;
  lazymatch goal with
  | |- counts _ (bind ?m ?k) (bind ?m' ?k') =>
      apply counts_bind; [|let x := fresh in intros x]; count
  | |- counts _ (ret ?a) (ret ?a) => apply counts_ret
  | |- counts _ (fail ?e) (fail ?e) => apply counts_fail
  | |- counts _ (lift ?o) (lift ?o) => apply counts_lift
  | |- counts _ panic panic => apply counts_panic
  | |- counts _ get_off get_off => apply counts_off
  | |- counts _ get_cfg get_cfg => apply counts_cfg
  | |- counts _ (m_alloc _ _) (m_alloc _ _) => apply counts_alloc
  | |- counts _ (sub _ _) (sub _ _) => apply counts_sub
  | |- counts _ (loop _ _) (loop _ _) => apply counts_loop; let x := fresh in intros x; count
  | |- counts _ (parse_if ?b _) (parse_if ?b _) => apply counts_if; count
  | |- counts _ (if ?b then _ else _) (if ?b then _ else _) => destruct b; count
  | |- counts _ (match ?x with _ => _ end) (match ?x with _ => _ end) => destruct x; count
  | |- counts _ _ _ => first [solve [eauto with counts]|idtac]
  | _ => idtac
  end.

Section Parsers.
Context (pl : platform) {S : Type} (PB : parsebuf S).
Notation CB := (counting pl PB).

Lemma counts_chunk : counts pl (m_chunk PB) (m_chunk CB).
Proof.
  apply counts_same. intros p. unfold m_chunk. cbn [counting pb_chunk p_buf counted fst].
  destruct (pb_chunk PB (p_buf p)) as [r s]. auto.
Qed.
Lemma counts_advance : forall n, counts pl (m_advance PB n) (m_advance CB n).
Proof.
  intros n p. unfold m_advance. cbn [counting pb_advance p_buf counted fst snd p_off].
  destruct (pb_advance PB (p_buf p) n) as [r s]. cbn [fst snd p_off]. split; [lia|].
  destruct (N.ltb_spec (usize_max pl) (p_off p + n)); split; intros; try lia; reflexivity.
Qed.
Lemma counts_hint : counts pl (m_hint PB) (m_hint CB).
Proof. now apply counts_same. Qed.
Hint Resolve counts_chunk counts_advance counts_hint : counts.

Lemma counts_bound : forall n, counts pl (safe_capacity_bound pl PB n) (safe_capacity_bound pl CB n).
Proof. intros n. unfold safe_capacity_bound. count. Qed.
Lemma counts_cursor : forall n, counts pl (cursor_new PB n) (cursor_new CB n).
Proof. intros n. unfold cursor_new. count. Qed.
Hint Resolve counts_bound counts_cursor : counts.
Lemma counts_split : forall n, counts pl (split_at PB n) (split_at CB n).
Proof. intros n. unfold split_at. count. Qed.
Lemma counts_direct : forall n, counts pl (parse_bytes_direct PB n) (parse_bytes_direct CB n).
Proof. intros n. unfold parse_bytes_direct. count. Qed.
Lemma counts_to_slice : forall n, counts pl (parse_to_slice PB n) (parse_to_slice CB n).
Proof. intros n. unfold parse_to_slice. count. Qed.
Hint Resolve counts_split counts_direct counts_to_slice : counts.
Lemma counts_bytes : forall n, counts pl (parse_bytes pl PB n) (parse_bytes pl CB n).
Proof. intros n. unfold parse_bytes, parse_bytes_slow. count. Qed.
Lemma counts_ignored : forall n, counts pl (parse_bytes_ignored PB n) (parse_bytes_ignored CB n).
Proof. intros n. unfold parse_bytes_ignored. count. Qed.
Lemma counts_array : forall n, counts pl (parse_array PB n) (parse_array CB n).
Proof. intros n. unfold parse_array. count. Qed.
Hint Resolve counts_bytes counts_ignored counts_array : counts.
Lemma counts_u8 : counts pl (parse_u8 PB) (parse_u8 CB).
Proof. unfold parse_u8. count. Qed.
Lemma counts_u16 : counts pl (parse_u16 pl PB) (parse_u16 pl CB).
Proof. unfold parse_u16. count. Qed.
Lemma counts_u32 : counts pl (parse_u32 pl PB) (parse_u32 pl CB).
Proof. unfold parse_u32. count. Qed.
Lemma counts_u64 : counts pl (parse_u64 pl PB) (parse_u64 pl CB).
Proof. unfold parse_u64. count. Qed.
Hint Resolve counts_u8 counts_u16 counts_u32 counts_u64 : counts.
Lemma counts_padded : forall A k (m : M S A) m', counts pl m m' -> counts pl (parse_padded PB k m) (parse_padded CB k m').
Proof. intros A k m m' H. unfold parse_padded. count. Qed.
Lemma counts_slice : forall A (E : elem A) n, counts pl (el_parse E PB) (el_parse E CB) ->
  counts pl (parse_slice pl PB E n) (parse_slice pl CB E n).
Proof. intros A E n H. unfold parse_slice, parse_slice_direct, parse_repeated. count. Qed.
Hint Resolve counts_padded : counts.
Lemma counts_slice_u64 : forall n, counts pl (parse_slice pl PB (elem_u64 pl) n) (parse_slice pl CB (elem_u64 pl) n).
Proof. intros n. apply counts_slice. cbn [el_parse elem_u64]. count. Qed.
Lemma counts_slice_ns : forall n, counts pl (parse_slice pl PB (elem_ns pl) n) (parse_slice pl CB (elem_ns pl) n).
Proof. intros n. apply counts_slice. cbn [el_parse elem_ns]. unfold parse_ns_entry. count. Qed.
Lemma counts_slice_branch : forall n, counts pl (parse_slice pl PB (elem_branch pl) n) (parse_slice pl CB (elem_branch pl) n).
Proof. intros n. apply counts_slice. cbn [el_parse elem_branch]. unfold parse_branch_entry. count. Qed.
Hint Resolve counts_slice_u64 counts_slice_ns counts_slice_branch : counts.

Lemma counts_rest : counts pl (parse_rest PB) (parse_rest CB).
Proof.
  unfold parse_rest. apply counts_bind; [apply counts_chunk|]. intros c. cbv zeta.
  apply counts_bind; [apply counts_advance|]. intros _. apply counts_loop. intros bytes p.
  destruct (counts_chunk p) as (H1 & H2 & H3).
  assert (E : p_off (snd (m_chunk PB p)) = p_off p).
  { unfold m_chunk. now destruct (pb_chunk PB (p_buf p)). }
  rewrite E in *. destruct (m_chunk PB p) as [r p'] eqn:Ep. cbn [fst snd] in *.
  destruct (N.le_gt_cases (p_off p) (usize_max pl)) as [Hle|Hgt].
  - rewrite (H2 Hle). destruct r as [y|e| |]; cbv iota.
    + rewrite <- E in *. apply (counts_bind pl _ _ _ _ (fun _ => ret (inl (Owned (cow_list bytes ++ chunk_data y)))) _
        (counts_advance (len (chunk_data y)))). intros _. apply counts_ret.
    + destruct (is_eof e); cbn [fst snd]; (split; [lia|]); (split; [reflexivity|]); lia.
    + cbn [fst snd]. split; [lia|]. split; [reflexivity|]. lia.
    + cbn [fst snd]. split; [lia|]. split; [reflexivity|]. lia.
  - assert (G : p_off p <= p_off (snd (match r with
      | Ok c0 => (m_advance PB (len (chunk_data c0)) ;;; ret (inl (Owned (cow_list bytes ++ chunk_data c0)))) p'
      | Err e => if is_eof e then (Ok (inr bytes), p') else (Err e, p')
      | Panic => (Panic, p') | Fuel => (Fuel, p') end))).
    { destruct r as [y|e| |]; cbn [snd]; try (destruct (is_eof e); cbn [snd]); try lia.
      rewrite <- E. apply (counts_bind pl _ _ _ _ (fun _ => ret (inl (Owned (cow_list bytes ++ chunk_data y))))
        (fun _ => ret (inl (Owned (cow_list bytes ++ chunk_data y)))) (counts_advance (len (chunk_data y)))). intros _. apply counts_ret. }
    split; [exact G|]. split; intros; lia.
Qed.
Lemma counts_string : counts pl (parse_rest_trim_nul PB) (parse_rest_trim_nul CB).
Proof. unfold parse_rest_trim_nul. count; apply counts_rest. Qed.

Lemma counts_header : counts pl (parse_header pl PB) (parse_header pl CB).
Proof. unfold parse_header. count. Qed.
Lemma counts_lost : counts pl (parse_lost pl PB) (parse_lost pl CB).
Proof. unfold parse_lost. count. Qed.
Lemma counts_lost_samples : counts pl (parse_lost_samples pl PB) (parse_lost_samples pl CB).
Proof. unfold parse_lost_samples. count. Qed.
Lemma counts_exit : counts pl (parse_exit pl PB) (parse_exit pl CB).
Proof. unfold parse_exit. count. Qed.
Lemma counts_throttle : counts pl (parse_throttle pl PB) (parse_throttle pl CB).
Proof. unfold parse_throttle. count. Qed.
Lemma counts_aux : counts pl (parse_aux pl PB) (parse_aux pl CB).
Proof. unfold parse_aux. count. Qed.
Lemma counts_itrace_start : counts pl (parse_itrace_start pl PB) (parse_itrace_start pl CB).
Proof. unfold parse_itrace_start. count. Qed.
Lemma counts_bpf_event : counts pl (parse_bpf_event pl PB) (parse_bpf_event pl CB).
Proof. unfold parse_bpf_event. count. Qed.
Lemma counts_aux_output_hw_id : counts pl (parse_aux_output_hw_id pl PB) (parse_aux_output_hw_id pl CB).
Proof. unfold parse_aux_output_hw_id. count. Qed.
Lemma counts_switch_cpu_wide : counts pl (parse_switch_cpu_wide pl PB) (parse_switch_cpu_wide pl CB).
Proof. unfold parse_switch_cpu_wide. count. Qed.
Lemma counts_text_poke : counts pl (parse_text_poke pl PB) (parse_text_poke pl CB).
Proof. unfold parse_text_poke. count. Qed.
Lemma counts_namespaces : counts pl (parse_namespaces pl PB) (parse_namespaces pl CB).
Proof. unfold parse_namespaces. count. Qed.
Lemma counts_registers : forall n, counts pl (parse_registers pl PB n) (parse_registers pl CB n).
Proof. intros n. unfold parse_registers. count. Qed.
Lemma counts_callchain : counts pl (parse_callchain pl PB) (parse_callchain pl CB).
Proof. unfold parse_callchain. count. Qed.
Lemma counts_raw : counts pl (parse_raw pl PB) (parse_raw pl CB).
Proof. unfold parse_raw. apply counts_padded. count. Qed.
Lemma counts_lbr : forall hw, counts pl (parse_lbr pl PB hw) (parse_lbr pl CB hw).
Proof. intros hw. unfold parse_lbr. count. Qed.
Lemma counts_stack_user : counts pl (parse_stack_user pl PB) (parse_stack_user pl CB).
Proof. unfold parse_stack_user. count. Qed.
Lemma counts_sample_aux : counts pl (parse_sample_aux pl PB) (parse_sample_aux pl CB).
Proof. unfold parse_sample_aux. count. Qed.
Lemma counts_read_value : counts pl (parse_read_value pl PB) (parse_read_value pl CB).
Proof. unfold parse_read_value. count. Qed.
Lemma counts_read_group : counts pl (parse_read_group pl PB) (parse_read_group pl CB).
Proof. unfold parse_read_group. count. Qed.
Hint Resolve counts_read_value counts_read_group counts_registers counts_callchain counts_raw counts_lbr
  counts_stack_user counts_sample_aux : counts.
Lemma counts_read : counts pl (parse_read pl PB) (parse_read pl CB).
Proof. unfold parse_read. count. Qed.
Lemma counts_sample_read : counts pl (parse_sample_read pl PB) (parse_sample_read pl CB).
Proof. unfold parse_sample_read. count. Qed.
Lemma counts_sample_id : counts pl (parse_sample_id pl PB) (parse_sample_id pl CB).
Proof. unfold parse_sample_id. count. Qed.
Hint Resolve counts_sample_read counts_sample_id : counts.
Lemma counts_sample : counts pl (parse_sample pl PB) (parse_sample pl CB).
Proof. unfold parse_sample. count. Qed.

Lemma counts_mmap : counts pl (parse_mmap pl PB) (parse_mmap pl CB).
Proof. unfold parse_mmap. repeat (apply counts_bind; [solve [count]|intros ?]). count; apply counts_string. Qed.
Lemma counts_comm : counts pl (parse_comm pl PB) (parse_comm pl CB).
Proof. unfold parse_comm. repeat (apply counts_bind; [solve [count]|intros ?]). count; apply counts_string. Qed.
Lemma counts_mmap2 : counts pl (parse_mmap2 pl PB) (parse_mmap2 pl CB).
Proof.
  unfold parse_mmap2, parse_mmap_detail. repeat (apply counts_bind; [solve [count]|intros ?]).
  count; apply counts_string.
Qed.
Lemma counts_ksymbol : counts pl (parse_ksymbol pl PB) (parse_ksymbol pl CB).
Proof. unfold parse_ksymbol. repeat (apply counts_bind; [solve [count]|intros ?]). count; apply counts_string. Qed.
Lemma counts_cgroup : counts pl (parse_cgroup pl PB) (parse_cgroup pl CB).
Proof. unfold parse_cgroup. repeat (apply counts_bind; [solve [count]|intros ?]). count; apply counts_string. Qed.

Hint Resolve counts_header counts_lost counts_lost_samples counts_exit counts_throttle counts_aux counts_itrace_start
  counts_bpf_event counts_aux_output_hw_id counts_switch_cpu_wide counts_text_poke counts_namespaces counts_read
  counts_sample : counts.
Hint Resolve counts_rest counts_mmap counts_comm counts_mmap2 counts_ksymbol counts_cgroup : counts.
Lemma counts_body : forall t, counts pl (parse_body pl PB t) (parse_body pl CB t).
Proof. intros t. unfold parse_body. count. Qed.

Lemma counts_attr : counts pl (parse_attr pl PB) (parse_attr pl CB).
Proof. unfold parse_attr. count. Qed.
Lemma counts_metadata_with_header : forall h,
  counts pl (parse_metadata_with_header pl PB h) (parse_metadata_with_header pl CB h).
Proof. intros h. unfold parse_metadata_with_header. count. Qed.
Lemma counts_record_with_header : forall O (V : visitor O) h,
  counts pl (parse_record_with_header pl PB V h) (parse_record_with_header pl CB V h).
Proof.
  intros O V h. unfold parse_record_with_header. apply counts_bind; [apply counts_metadata_with_header|].
  intros [q md]. unfold parse_record_impl. count.
Qed.
Lemma counts_record : forall O (V : visitor O), counts pl (parse_record pl PB V) (parse_record pl CB V).
Proof.
  intros O V. unfold parse_record. apply counts_bind; [apply counts_header|]. intros h. apply counts_record_with_header.
Qed.

Lemma counts_run : forall A (m : prog A), counts pl (run pl m S PB) (run pl m _ CB).
Proof.
  intros A m. induction m; cbn [run].
  - apply counts_ret.
  - apply counts_bind; [exact IHm|]. exact H.
  - apply counts_fail.
  - intros p. destruct (IHm p) as (H1 & H2 & H3). destruct (run pl m S PB p) as [r p1] eqn:E. cbn [fst snd] in *.
    assert (G : snd (match r with Ok a => (Ok (inr a), p1) | Err e => (Ok (inl e), p1) | Panic => (Panic, p1)
      | Fuel => (@Fuel (perror + A), p1) end) = p1) by now destruct r.
    rewrite G. split; [exact H1|]. split.
    + intros Hle. rewrite (H2 Hle). now destruct r.
    + intros Hp Hgt. specialize (H3 Hp Hgt). destruct (run pl m _ CB (counted p)) as [r' q]. cbn [fst] in H3. now subst r'.
  - apply counts_cfg.
  - apply counts_u8.
  - apply counts_u16.
  - apply counts_u32.
  - apply counts_u64.
  - apply counts_array.
  - apply counts_bind; [apply counts_bytes|]. intros x. apply counts_ret.
  - apply counts_bind; [apply counts_rest|]. intros x. apply counts_ret.
  - apply counts_bind; [apply counts_string|]. intros x. apply counts_ret.
  - now apply counts_if.
  - unfold parse_repeated_with. apply counts_bind; [apply counts_bound|]. intros b.
    apply counts_bind; [apply counts_alloc|]. intros _. apply counts_loop. intros [i vec].
    destruct (i =? 0); [apply counts_ret|]. apply counts_bind; [exact IHm|]. intros x. apply counts_ret.
  - apply counts_sample_id.
  - apply counts_attr.
  - apply counts_bind; [apply counts_slice_u64|]. intros x. apply counts_ret.
  - apply counts_bind; [apply counts_body|]. intros x. apply counts_ret.
  - apply counts_record_with_header.
  - apply counts_bind; [apply counts_metadata_with_header|]. intros x. apply counts_sub.
Qed.
End Parsers.


(** * Without checks *)

Lemma wrapping_sub_add : forall pl x d, wrapping_sub pl (x + d) x = d mod 2 ^ pl_bits pl.
Proof.
  intros pl x d. unfold wrapping_sub, wrapping. set (M := 2 ^ pl_bits pl).
  assert (HM : M <> 0) by (apply N.pow_nonzero; discriminate).
  pose proof (N.mod_lt x M HM) as Hx. pose proof (N.div_mod x M HM) as Dx.
  rewrite <- N.add_sub_assoc by lia. rewrite N.add_mod_idemp_l by exact HM.
  set (r := x mod M) in *. replace (x + d + (M - r)) with (d + (x / M + 1) * M).
  - now apply N.mod_add.
  - rewrite N.mul_add_distr_r, N.mul_1_l, (N.mul_comm (x / M)). lia.
Qed.

Lemma padded_wraps : forall pl S (PB : parsebuf S) A (m : M S A) padding p,
  p_off p <= p_off (snd (m p)) ->
  p_off (snd (m p)) - p_off p < 2 ^ pl_bits pl \/ (padding | 2 ^ pl_bits pl) ->
  parse_padded_wrapping pl PB padding m p = parse_padded PB padding m p.
Proof.
  intros pl S PB A m padding p Hle H. unfold parse_padded_wrapping, parse_padded.
  destruct (N.eqb_spec padding 0) as [|Hp]; [reflexivity|].
  unfold bind, get_off. destruct (m p) as [[v|e| |] p1]; [|reflexivity|reflexivity|reflexivity]. cbn [snd] in *.
  cbv zeta.
  replace (wrapping_sub pl (p_off p1) (p_off p) mod padding) with ((p_off p1 - p_off p) mod padding);
    [destruct ((p_off p1 - p_off p) mod padding =? 0); reflexivity|].
  replace (p_off p1) with (p_off p + (p_off p1 - p_off p)) at 2 by lia. rewrite wrapping_sub_add.
  destruct H as [H|[k H]].
  - now rewrite (N.mod_small _ (2 ^ pl_bits pl)).
  - rewrite H, (N.mul_comm k). set (d := p_off p1 - p_off p).
    assert (Hk : k <> 0) by (intros ->; cbn in H; revert H; apply N.pow_nonzero; discriminate).
    rewrite N.mod_mul_r by assumption. rewrite (N.mul_comm padding), N.mod_add by assumption.
    now rewrite N.mod_mod.
Qed.
