(** Up to its first failure a source which falters is like any other. *)
From Coq Require Import NArith List Bool Lia.
From Verif Require Import Base BaseFacts Types Platform Config Buf Parser Contract Flat Refine.
From Verif Require Import Instances Prims Slices Records Sample Record Attr Views RefRecords RefFrame RefTop Safe.
From Verif Require Import Wire Spec FrameFacts Client ClientFacts ClientSafe Falter NoHint PropsFrame PropsSame.
Import ListNotations.
Open Scope N_scope.

Section Basics.
Context {S : Type}.

(** The runs on a source and on that source stuck at its first failure.  Unless [late], success
    means there was no failure, and a failure there was is the result. *)
Definition follows (late : bool) {A : Type} (m : M S A) (m' : M (S * option perror) A) : Prop :=
  forall p, match m p, m' (stuck p None) with
    | (Ok a, p'), (Ok b, q') => a = b /\ exists k, q' = stuck p' k /\ (late = false -> k = None)
    | (Err e, p'), (Err f, q') => e = f /\ exists k, q' = stuck p' k /\ (late = false -> k = None \/ k = Some e)
    | (Panic, p'), (Panic, q') | (Fuel, p'), (Fuel, q') => exists k, q' = stuck p' k
    | _, _ => False
    end.

Lemma follows_late : forall A (m : M S A) m' late, follows false m m' -> follows late m m'.
Proof.
  intros A m m' late H p. specialize (H p). destruct (m p) as [[a|e| |] p'], (m' (stuck p None)) as [[b|f| |] q'];
    try exact H; destruct H as (E & k & Eq & Hk); (split; [exact E|]); exists k; (split; [exact Eq|]); intros _; now apply Hk.
Qed.

Lemma follows_bind : forall late A B (m : M S A) m' (k : A -> M S B) k',
  follows false m m' -> (forall a, follows late (k a) (k' a)) -> follows late (bind m k) (bind m' k').
Proof.
  intros late A B m m' k k' Hm Hk p. unfold bind. specialize (Hm p).
  destruct (m p) as [[a|e| |] p'], (m' (stuck p None)) as [[b|f| |] q']; try contradiction; try exact Hm.
  - destruct Hm as (<- & j & -> & Hj). rewrite (Hj eq_refl). apply Hk.
  - destruct Hm as (<- & j & -> & Hj). split; [reflexivity|]. exists j. split; [reflexivity|]. intros _. now apply Hj.
Qed.

(** After reading to the end, nothing is left to do but to compute. *)
Lemma follows_then : forall A B (m : M S A) m' (o : A -> out B),
  follows true m m' -> follows true (x <- m ;; lift (o x)) (x <- m' ;; lift (o x)).
Proof.
  intros A B m m' o Hm p. unfold bind, lift. specialize (Hm p).
  destruct (m p) as [[a|e| |] p'], (m' (stuck p None)) as [[b|f| |] q']; try contradiction; try exact Hm.
  destruct Hm as (<- & k & -> & _). destruct (o a) as [c|e| |].
  - split; [reflexivity|]. exists k. split; [reflexivity|discriminate].
  - split; [reflexivity|]. exists k. split; [reflexivity|discriminate].
  - now exists k.
  - now exists k.
Qed.
Lemma follows_map : forall A B (m : M S A) m' (f : A -> B),
  follows true m m' -> follows true (x <- m ;; ret (f x)) (x <- m' ;; ret (f x)).
Proof. intros A B m m' f H. exact (follows_then A B m m' (fun x => Ok (f x)) H). Qed.

Lemma follows_lift : forall late A (o : out A), follows late (lift o) (lift o).
Proof.
  intros late A [a|e| |] p; cbn; [split; [reflexivity|]|split; [reflexivity|]| |]; exists None; auto.
Qed.
Lemma follows_ret : forall late A (a : A), follows late (ret a) (ret a).
Proof. intros. apply follows_lift with (o := Ok a). Qed.
Lemma follows_fail : forall late A e, follows late (@fail S A e) (fail e).
Proof. intros. apply follows_lift with (o := Err e). Qed.
Lemma follows_panic : forall late A, follows late (@panic S A) panic.
Proof. intros. apply follows_lift with (o := Panic). Qed.
Lemma follows_cfg : forall late, follows late (@get_cfg S) get_cfg.
Proof. intros late p. split; [reflexivity|]. now exists None. Qed.
Lemma follows_off : forall late, follows late (@get_off S) get_off.
Proof. intros late p. split; [reflexivity|]. now exists None. Qed.
Lemma follows_alloc : forall late pl n, follows late (@m_alloc pl S n) (m_alloc pl n).
Proof.
  intros late pl n p. unfold m_alloc. destruct (isize_max pl <? n); cbn; [|split; [reflexivity|]]; now exists None.
Qed.
Lemma follows_if : forall late A b (m : M S A) m', follows late m m' -> follows late (parse_if b m) (parse_if b m').
Proof.
  intros [] A [] m m' H; unfold parse_if; try apply follows_ret; [now apply follows_map|].
  apply follows_bind; [exact H|]. intros a. apply follows_ret.
Qed.
Lemma follows_sub : forall late S2 A (m : M S2 A) q, follows late (@sub S S2 A m q) (sub m q).
Proof.
  intros late S2 A m q p. unfold sub. destruct (m q) as [[a|e| |] q'];
    [split; [reflexivity|]|split; [reflexivity|]| |]; exists None; auto.
Qed.

Lemma follows_loop_pos : forall St B (body : St -> M S (St + B)) body' n x,
  (forall x, follows false (body x) (body' x)) -> follows false (loop_pos body n x) (loop_pos body' n x).
Proof.
  intros St B body body' n x H. revert x. induction n as [n IH|n IH|]; intros x; cbn [loop_pos]; [| |apply H].
  - apply follows_bind; [apply H|]. intros [y|b]; [|apply follows_ret].
    apply follows_bind; [apply IH|]. intros [z|b]; [apply IH|apply follows_ret].
  - apply follows_bind; [apply IH|]. intros [y|b]; [apply IH|apply follows_ret].
Qed.
Lemma follows_loop : forall late St B (body : St -> M S (St + B)) body' x,
  (forall x, follows false (body x) (body' x)) -> follows late (loop body x) (loop body' x).
Proof.
  intros late St B body body' x H. apply follows_late. unfold loop. apply follows_bind; [now apply follows_loop_pos|].
  intros [y|b]; [apply follows_lift|apply follows_ret].
Qed.
End Basics.

(** Binds, branches and loops in step. *)
Ltac follow :=
  cbv zeta;
  lazymatch goal with
  | |- follows ?late (bind ?m ?k) (bind ?m' ?k') =>
      apply follows_bind; [|let x := fresh in intros x]; follow
  | |- follows _ (ret ?a) (ret ?a) => apply follows_ret
  | |- follows _ (fail ?e) (fail ?e) => apply follows_fail
  | |- follows _ (lift ?o) (lift ?o) => apply follows_lift
  | |- follows _ panic panic => apply follows_panic
  | |- follows _ get_off get_off => apply follows_off
  | |- follows _ get_cfg get_cfg => apply follows_cfg
  | |- follows _ (m_alloc _ _) (m_alloc _ _) => apply follows_alloc
  | |- follows _ (sub _ _) (sub _ _) => apply follows_sub
  | |- follows _ (loop _ _) (loop _ _) => apply follows_loop; let x := fresh in intros x; follow
  | |- follows _ (parse_if ?b _) (parse_if ?b _) => apply follows_if; follow
  | |- follows _ (if ?b then _ else _) (if ?b then _ else _) => destruct b; follow
  | |- follows _ (match ?x with _ => _ end) (match ?x with _ => _ end) => destruct x; follow
  | |- follows false _ _ => first [solve [eauto with follows]|idtac]
  | |- follows _ _ _ => first [solve [eauto with follows]|apply follows_late; solve [eauto with follows]|idtac]
  | _ => idtac
  end.

Section Parsers.
Context (pl : platform) {S : Type} (PB : parsebuf S).
Notation SB := (stick PB).

Lemma follows_chunk : follows false (m_chunk PB) (m_chunk SB).
Proof.
  intros p. unfold m_chunk. cbn [stick pb_chunk p_buf stuck]. destruct (pb_chunk PB (p_buf p)) as [[c|e| |] s].
  - split; [reflexivity|]. now exists None.
  - split; [reflexivity|]. exists (Some e). split; [reflexivity|]. auto.
  - now exists None.
  - now exists None.
Qed.
Lemma follows_advance : forall n, follows false (m_advance PB n) (m_advance SB n).
Proof.
  intros n p. unfold m_advance. cbn [stick pb_advance p_buf stuck]. destruct (pb_advance PB (p_buf p) n) as [[[]|e| |] s].
  - split; [reflexivity|]. now exists None.
  - split; [reflexivity|]. exists (Some e). auto.
  - now exists None.
  - now exists None.
Qed.
Lemma follows_hint : follows false (m_hint PB) (m_hint SB).
Proof. intros p. split; [reflexivity|]. now exists None. Qed.
Hint Resolve follows_chunk follows_advance follows_hint : follows.

Lemma follows_bound : forall n, follows false (safe_capacity_bound pl PB n) (safe_capacity_bound pl SB n).
Proof. intros n. unfold safe_capacity_bound. follow. Qed.
Lemma follows_cursor : forall n, follows false (cursor_new PB n) (cursor_new SB n).
Proof. intros n. unfold cursor_new. follow. Qed.
Hint Resolve follows_bound follows_cursor : follows.
Lemma follows_split : forall n, follows false (split_at PB n) (split_at SB n).
Proof. intros n. unfold split_at. follow. Qed.
Lemma follows_direct : forall n, follows false (parse_bytes_direct PB n) (parse_bytes_direct SB n).
Proof. intros n. unfold parse_bytes_direct. follow. Qed.
Lemma follows_to_slice : forall n, follows false (parse_to_slice PB n) (parse_to_slice SB n).
Proof. intros n. unfold parse_to_slice. follow. Qed.
Hint Resolve follows_split follows_direct follows_to_slice : follows.
Lemma follows_bytes : forall n, follows false (parse_bytes pl PB n) (parse_bytes pl SB n).
Proof. intros n. unfold parse_bytes, parse_bytes_slow. follow. Qed.
Lemma follows_ignored : forall n, follows false (parse_bytes_ignored PB n) (parse_bytes_ignored SB n).
Proof. intros n. unfold parse_bytes_ignored. follow. Qed.
Lemma follows_array : forall n, follows false (parse_array PB n) (parse_array SB n).
Proof. intros n. unfold parse_array. follow. Qed.
Hint Resolve follows_bytes follows_ignored follows_array : follows.
Lemma follows_u8 : follows false (parse_u8 PB) (parse_u8 SB).
Proof. unfold parse_u8. follow. Qed.
Lemma follows_u16 : follows false (parse_u16 pl PB) (parse_u16 pl SB).
Proof. unfold parse_u16. follow. Qed.
Lemma follows_u32 : follows false (parse_u32 pl PB) (parse_u32 pl SB).
Proof. unfold parse_u32. follow. Qed.
Lemma follows_u64 : follows false (parse_u64 pl PB) (parse_u64 pl SB).
Proof. unfold parse_u64. follow. Qed.
Hint Resolve follows_u8 follows_u16 follows_u32 follows_u64 : follows.
Lemma follows_padded : forall A k (m : M S A) m', follows false m m' -> follows false (parse_padded PB k m) (parse_padded SB k m').
Proof. intros A k m m' H. unfold parse_padded. follow. Qed.
Lemma follows_slice : forall A (E : elem A) n, follows false (el_parse E PB) (el_parse E SB) ->
  follows false (parse_slice pl PB E n) (parse_slice pl SB E n).
Proof. intros A E n H. unfold parse_slice, parse_slice_direct, parse_repeated. follow. Qed.
Hint Resolve follows_padded : follows.
Lemma follows_slice_u64 : forall n, follows false (parse_slice pl PB (elem_u64 pl) n) (parse_slice pl SB (elem_u64 pl) n).
Proof. intros n. apply follows_slice. cbn [el_parse elem_u64]. follow. Qed.
Lemma follows_slice_ns : forall n, follows false (parse_slice pl PB (elem_ns pl) n) (parse_slice pl SB (elem_ns pl) n).
Proof. intros n. apply follows_slice. cbn [el_parse elem_ns]. unfold parse_ns_entry. follow. Qed.
Lemma follows_slice_branch : forall n, follows false (parse_slice pl PB (elem_branch pl) n) (parse_slice pl SB (elem_branch pl) n).
Proof. intros n. apply follows_slice. cbn [el_parse elem_branch]. unfold parse_branch_entry. follow. Qed.
Hint Resolve follows_slice_u64 follows_slice_ns follows_slice_branch : follows.

(** Reading to the end: a failure of kind [Eof] ends it well. *)
Lemma follows_rest : follows true (parse_rest PB) (parse_rest SB).
Proof.
  unfold parse_rest. apply follows_bind; [apply follows_chunk|]. intros c. cbv zeta.
  apply follows_bind; [apply follows_advance|]. intros _.
  set (body := fun bytes : cow N => fun p => _). set (body' := fun bytes : cow N => fun p => _).
  pose (R := fun (m : M S (cow N + cow N)) (m' : M (S * option perror) (cow N + cow N)) => forall p,
    match m p, m' (stuck p None) with
    | (Ok a, p'), (Ok b, q') => a = b /\ exists k, q' = stuck p' k /\ (match a with inl _ => k = None | inr _ => True end)
    | (Err e, p'), (Err f, q') => e = f /\ exists k, q' = stuck p' k
    | (Panic, p'), (Panic, q') | (Fuel, p'), (Fuel, q') => exists k, q' = stuck p' k
    | _, _ => False
    end).
  assert (Hb : forall x, R (body x) (body' x)).
  { intros x p. unfold body, body'. pose proof (follows_chunk p) as H.
    destruct (m_chunk PB p) as [[y|e| |] p'], (m_chunk SB (stuck p None)) as [[z|f| |] q']; try contradiction; try exact H.
    - destruct H as (<- & k & -> & Hk). rewrite (Hk eq_refl). unfold bind, ret.
      pose proof (follows_advance (len (chunk_data y)) p') as H.
      destruct (m_advance PB _ p') as [[[]|e| |] p2], (m_advance SB _ _) as [[[]|f| |] q2]; try contradiction; try exact H.
      + destruct H as (_ & k2 & -> & Hk2). split; [reflexivity|]. exists k2. auto.
      + destruct H as (E & k2 & -> & _). split; [exact E|]. now exists k2.
    - destruct H as (<- & k & -> & _). destruct (is_eof e); (split; [reflexivity|]); exists k; auto. }
  assert (Hj : forall m m' f f', R m m' -> (forall y, R (f y) (f' y)) ->
    R (r <- m ;; match r with inl y => f y | inr b => ret (inr b) end)
      (r <- m' ;; match r with inl y => f' y | inr b => ret (inr b) end)).
  { intros m m' f f' Hm Hf p. unfold bind. specialize (Hm p).
    destruct (m p) as [[[y|b]|e| |] p'], (m' (stuck p None)) as [[[y'|b']|e'| |] q']; try contradiction; try exact Hm;
      destruct Hm as (E & k & -> & Hk); try discriminate E.
    injection E as <-. subst k. apply Hf. }
  assert (Hp : forall n x, R (loop_pos body n x) (loop_pos body' n x)).
  { induction n as [n IH|n IH|]; intros x; cbn [loop_pos].
    - apply Hj; [apply Hb|]. intros y. apply Hj; [apply IH|]. exact IH.
    - apply Hj; [apply IH|]. exact IH.
    - apply Hb. }
  intros p. unfold loop, bind. specialize (Hp loop_fuel (chunk_to_cow c) p).
  destruct (loop_pos body loop_fuel (chunk_to_cow c) p) as [[[y|b]|e| |] p'],
    (loop_pos body' loop_fuel (chunk_to_cow c) (stuck p None)) as [[[y'|b']|e'| |] q']; try contradiction; try exact Hp.
  - destruct Hp as (E & k & -> & _). cbn. now exists k.
  - destruct Hp as (E & _). discriminate E.
  - destruct Hp as (E & _). discriminate E.
  - destruct Hp as (E & k & -> & _). injection E as <-. cbn. split; [reflexivity|]. exists k. split; [reflexivity|discriminate].
  - destruct Hp as (E & k & ->). split; [exact E|]. exists k. split; [reflexivity|discriminate].
Qed.
Lemma follows_string : follows true (parse_rest_trim_nul PB) (parse_rest_trim_nul SB).
Proof. unfold parse_rest_trim_nul. apply (follows_then _ _ _ _ (fun bytes => _)), follows_rest. Qed.

Lemma follows_header : follows false (parse_header pl PB) (parse_header pl SB).
Proof. unfold parse_header. follow. Qed.
Lemma follows_lost : follows false (parse_lost pl PB) (parse_lost pl SB).
Proof. unfold parse_lost. follow. Qed.
Lemma follows_lost_samples : follows false (parse_lost_samples pl PB) (parse_lost_samples pl SB).
Proof. unfold parse_lost_samples. follow. Qed.
Lemma follows_exit : follows false (parse_exit pl PB) (parse_exit pl SB).
Proof. unfold parse_exit. follow. Qed.
Lemma follows_throttle : follows false (parse_throttle pl PB) (parse_throttle pl SB).
Proof. unfold parse_throttle. follow. Qed.
Lemma follows_aux : follows false (parse_aux pl PB) (parse_aux pl SB).
Proof. unfold parse_aux. follow. Qed.
Lemma follows_itrace_start : follows false (parse_itrace_start pl PB) (parse_itrace_start pl SB).
Proof. unfold parse_itrace_start. follow. Qed.
Lemma follows_bpf_event : follows false (parse_bpf_event pl PB) (parse_bpf_event pl SB).
Proof. unfold parse_bpf_event. follow. Qed.
Lemma follows_aux_output_hw_id : follows false (parse_aux_output_hw_id pl PB) (parse_aux_output_hw_id pl SB).
Proof. unfold parse_aux_output_hw_id. follow. Qed.
Lemma follows_switch_cpu_wide : follows false (parse_switch_cpu_wide pl PB) (parse_switch_cpu_wide pl SB).
Proof. unfold parse_switch_cpu_wide. follow. Qed.
Lemma follows_text_poke : follows false (parse_text_poke pl PB) (parse_text_poke pl SB).
Proof. unfold parse_text_poke. follow. Qed.
Lemma follows_namespaces : follows false (parse_namespaces pl PB) (parse_namespaces pl SB).
Proof. unfold parse_namespaces. follow. Qed.
Lemma follows_registers : forall n, follows false (parse_registers pl PB n) (parse_registers pl SB n).
Proof. intros n. unfold parse_registers. follow. Qed.
Lemma follows_callchain : follows false (parse_callchain pl PB) (parse_callchain pl SB).
Proof. unfold parse_callchain. follow. Qed.
Lemma follows_raw : follows false (parse_raw pl PB) (parse_raw pl SB).
Proof. unfold parse_raw. apply follows_padded. follow. Qed.
Lemma follows_lbr : forall hw, follows false (parse_lbr pl PB hw) (parse_lbr pl SB hw).
Proof. intros hw. unfold parse_lbr. follow. Qed.
Lemma follows_stack_user : follows false (parse_stack_user pl PB) (parse_stack_user pl SB).
Proof. unfold parse_stack_user. follow. Qed.
Lemma follows_sample_aux : follows false (parse_sample_aux pl PB) (parse_sample_aux pl SB).
Proof. unfold parse_sample_aux. follow. Qed.
Lemma follows_read_value : follows false (parse_read_value pl PB) (parse_read_value pl SB).
Proof. unfold parse_read_value. follow. Qed.
Lemma follows_read_group : follows false (parse_read_group pl PB) (parse_read_group pl SB).
Proof. unfold parse_read_group. follow. Qed.
Hint Resolve follows_read_value follows_read_group follows_registers follows_callchain follows_raw follows_lbr
  follows_stack_user follows_sample_aux : follows.
Lemma follows_read : follows false (parse_read pl PB) (parse_read pl SB).
Proof. unfold parse_read. follow. Qed.
Lemma follows_sample_read : follows false (parse_sample_read pl PB) (parse_sample_read pl SB).
Proof. unfold parse_sample_read. follow. Qed.
Lemma follows_sample_id : follows false (parse_sample_id pl PB) (parse_sample_id pl SB).
Proof. unfold parse_sample_id. follow. Qed.
Hint Resolve follows_sample_read follows_sample_id : follows.
Lemma follows_sample : follows false (parse_sample pl PB) (parse_sample pl SB).
Proof. unfold parse_sample. follow. Qed.

Lemma follows_mmap : follows true (parse_mmap pl PB) (parse_mmap pl SB).
Proof. unfold parse_mmap. repeat (apply follows_bind; [solve [follow]|intros ?]). apply follows_map, follows_string. Qed.
Lemma follows_comm : follows true (parse_comm pl PB) (parse_comm pl SB).
Proof. unfold parse_comm. repeat (apply follows_bind; [solve [follow]|intros ?]). apply follows_map, follows_string. Qed.
Lemma follows_mmap2 : follows true (parse_mmap2 pl PB) (parse_mmap2 pl SB).
Proof.
  unfold parse_mmap2, parse_mmap_detail. repeat (apply follows_bind; [solve [follow]|intros ?]).
  apply follows_map, follows_string.
Qed.
Lemma follows_ksymbol : follows true (parse_ksymbol pl PB) (parse_ksymbol pl SB).
Proof. unfold parse_ksymbol. repeat (apply follows_bind; [solve [follow]|intros ?]). apply follows_map, follows_string. Qed.
Lemma follows_cgroup : follows true (parse_cgroup pl PB) (parse_cgroup pl SB).
Proof. unfold parse_cgroup. repeat (apply follows_bind; [solve [follow]|intros ?]). apply follows_map, follows_string. Qed.

Hint Resolve follows_header follows_lost follows_lost_samples follows_exit follows_throttle follows_aux follows_itrace_start
  follows_bpf_event follows_aux_output_hw_id follows_switch_cpu_wide follows_text_poke follows_namespaces follows_read
  follows_sample : follows.
Lemma follows_body : forall t, follows (to_the_end t) (parse_body pl PB t) (parse_body pl SB t).
Proof.
  intros t. unfold parse_body.
  repeat match goal with
  | |- follows _ (if t =? ?n then _ else _) _ =>
      destruct (N.eqb_spec t n) as [->|];
      [first [cbn [to_the_end existsb N.eqb Pos.eqb negb orb]; solve [follow]
             |apply follows_map; first [apply follows_mmap|apply follows_comm|apply follows_mmap2|apply follows_ksymbol|apply follows_cgroup]]|]
  end.
  assert (E : to_the_end t = true).
  { unfold to_the_end. cbn [existsb].
    repeat match goal with H : t <> ?n |- _ => rewrite (proj2 (N.eqb_neq t n) H); clear H end. reflexivity. }
  rewrite E. apply follows_map, follows_rest.
Qed.

Lemma follows_attr : follows false (parse_attr pl PB) (parse_attr pl SB).
Proof. unfold parse_attr. follow. Qed.
Lemma follows_metadata_with_header : forall h,
  follows false (parse_metadata_with_header pl PB h) (parse_metadata_with_header pl SB h).
Proof. intros h. unfold parse_metadata_with_header. follow. Qed.
Lemma follows_record_with_header : forall O (V : visitor O) h,
  follows false (parse_record_with_header pl PB V h) (parse_record_with_header pl SB V h).
Proof.
  intros O V h. unfold parse_record_with_header. apply follows_bind; [apply follows_metadata_with_header|].
  intros [q md]. unfold parse_record_impl. follow.
Qed.
Lemma follows_record : forall O (V : visitor O), follows false (parse_record pl PB V) (parse_record pl SB V).
Proof.
  intros O V. unfold parse_record. apply follows_bind; [apply follows_header|]. intros h. apply follows_record_with_header.
Qed.
End Parsers.

(** * Programs *)

Lemma follows_firm : forall pl S (PB : parsebuf S) A (m : prog A), firm m ->
  follows false (run pl m S PB) (run pl m _ (stick PB)).
Proof.
  intros pl S PB A m. induction m; cbn [firm run]; intros Hf; try contradiction.
  - apply follows_ret.
  - destruct Hf as [H1 H2]. apply follows_bind; [now apply IHm|]. intros x. now apply H.
  - apply follows_fail.
  - apply follows_cfg.
  - apply follows_u8.
  - apply follows_u16.
  - apply follows_u32.
  - apply follows_u64.
  - apply follows_array.
  - apply follows_bind; [apply follows_bytes|]. intros x. apply follows_ret.
  - apply follows_if. now apply IHm.
  - unfold parse_repeated_with. apply follows_bind; [apply follows_bound|]. intros b.
    apply follows_bind; [apply follows_alloc|]. intros _. apply follows_loop. intros [i vec].
    destruct (i =? 0); [apply follows_ret|]. apply follows_bind; [now apply IHm|]. intros x. apply follows_ret.
  - apply follows_sample_id.
  - apply follows_attr.
  - apply follows_bind; [apply follows_slice_u64|]. intros x. apply follows_ret.
  - apply follows_bind; [|intros x; apply follows_ret]. rewrite <- Hf. apply follows_body.
  - apply follows_record_with_header.
  - apply follows_bind; [apply follows_metadata_with_header|]. intros x. apply follows_sub.
Qed.

Lemma follows_obedient : forall pl S (PB : parsebuf S) A (m : prog A), obedient m ->
  follows true (run pl m S PB) (run pl m _ (stick PB)).
Proof.
  intros pl S PB A m. induction m; cbn [obedient]; intros Hf;
    try (apply follows_late, follows_firm; cbn [firm]; exact I || exact Hf).
  - destruct Hf as [[H1 H2]|[H1 H2]].
    + cbn [run]. apply follows_bind; [now apply follows_firm|]. intros x. now apply H.
    + cbn [run]. pose (o := fun x => match p x in prog B return out B with PRet b => Ok b | PError e => Err e | _ => Fuel end).
      pose proof (follows_then _ _ _ _ o (IHm H1)) as G. intros q. specialize (G q). unfold bind, lift in *.
      assert (E : forall x S2 (PB2 : parsebuf S2) q2, run pl (p x) S2 PB2 q2 = (o x, q2)).
      { intros x S2 PB2 q2. unfold o. specialize (H2 x). destruct (p x); try contradiction; reflexivity. }
      destruct (run pl m S PB q) as [[x|e| |] q1], (run pl m _ (stick PB) (stuck q None)) as [[y|e'| |] q2]; rewrite ?E; exact G.
  - cbn [run]. intros p. specialize (IHm Hf p). 
    destruct (run pl m S PB p) as [[x|e| |] q1], (run pl m _ (stick PB) (stuck p None)) as [[y|e'| |] q2]; try contradiction; try exact IHm.
    + destruct IHm as (<- & k & -> & _). split; [reflexivity|]. exists k. split; [reflexivity|discriminate].
    + destruct IHm as (<- & k & -> & _). split; [reflexivity|]. exists k. split; [reflexivity|discriminate].
  - cbn [run]. apply follows_map, follows_rest.
  - cbn [run]. apply follows_map, follows_string.
  - cbn [run]. apply follows_if. now apply IHm.
  - cbn [run]. apply follows_map. pose proof (follows_body pl PB n) as H. destruct (to_the_end n); [exact H|now apply follows_late].
Qed.

(** * The source stuck at its first failure meets the contract *)

Section Stuck.
Context {S : Type} (PB : parsebuf S) (mo : mode) (cap : N) (mem : memory) (rep : S -> course -> N -> Prop).
Context (HF : falters PB mo cap mem rep) (e : perror) (g : course).

Definition stick_rep (s : S * option perror) (l : list N) (a : N) : Prop :=
  match snd s with
  | None => exists f, rep (fst s) f a /\ f O = (l, e) /\ forall n, f (Datatypes.S n) = g n
  | Some e' => e' = e /\ l = [] /\ exists f, rep (fst s) f a /\ forall n, f n = g n
  end.

Lemma stick_contract : contract (stick PB) mo e cap mem stick_rep.
Proof.
  constructor.
  - intros [s [e'|]] a H; cbn [snd fst stick_rep] in H; cbn [stick pb_chunk].
    + destruct H as (-> & _ & H). eexists. split; [reflexivity|]. now repeat split.
    + destruct H as (f & Hr & E0 & En).
      destruct (fl_stop HF _ _ _ Hr) as (s' & Ec & Hr'); [now rewrite E0|]. rewrite Ec, E0. cbn [snd].
      eexists. split; [reflexivity|]. cbn. repeat split. exists (next f). split; [exact Hr'|exact En].
  - intros [s [e'|]] l a H Hl; cbn [snd fst stick_rep] in H; cbn [stick pb_chunk].
    + destruct H as (_ & E & _). contradiction.
    + destruct H as (f & Hr & E0 & En).
      destruct (fl_chunk HF _ _ _ Hr) as (c & s' & Ec & Hr' & Hc & Hp & Hok & Ha); [now rewrite E0|].
      rewrite E0 in *. cbn [fst] in *. rewrite Ec. exists c. eexists. split; [reflexivity|].
      split; [exists f; auto|]. split; [exact Hc|]. split; [exact Hp|]. split; [exact Hok|].
      intros n Hn. destruct (Ha n Hn) as (s2 & Ea & Hr2). cbn [pb_advance stick]. rewrite Ea.
      eexists. split; [reflexivity|]. exists (onward n f). cbn [snd fst]. split; [exact Hr2|].
      unfold onward. rewrite E0. split; [reflexivity|exact En].
  - intros [s [e'|]] l a h H Eh; cbn [snd fst stick_rep] in H; cbn [stick pb_hint] in Eh.
    + injection Eh as <-. lia.
    + destruct H as (f & Hr & _). exact (fl_hint HF _ _ _ _ Hr Eh).
  - intros [s [e'|]] l a H Eh; cbn [snd fst stick_rep] in H; cbn [stick pb_hint] in Eh; [discriminate|].
    destruct H as (f & Hr & _). exact (fl_nohint HF _ _ _ Hr Eh).
Qed.
End Stuck.

Section Run.
Context {S : Type} (PB : parsebuf S) (mo : mode) (cap : N) (mem : memory).

Lemma falters_mono : forall cap' rep, falters PB mo cap mem rep -> cap <= cap' -> falters PB mo cap' mem rep.
Proof. intros cap' rep [] H. constructor; try assumption; intros; etransitivity; eauto. Qed.

Lemma faltering_stuck : forall cap', cap <= cap' -> forall p f a, faltering PB mo cap mem p f a ->
  exists rep, falters PB mo cap mem rep /\
    contract (stick PB) mo (snd (f O)) cap' mem (stick_rep rep (snd (f O)) (next f)) /\
    stick_rep rep (snd (f O)) (next f) (p_buf p, None) (fst (f O)) a /\ (forall n, wf (fst (f n))).
Proof.
  intros cap' Hle p f a (rep & g & HF & Hr & Hg). exists rep. split; [exact HF|].
  split; [apply stick_contract; now apply falters_mono|].
  split; [|intros n; apply Hg]. exists g. split; [exact Hr|]. split.
  - rewrite (proj1 (Hg O)). now destruct (f O).
  - intros n. apply Hg.
Qed.

Lemma follows_steps : forall late A (m : M S A) m' p f a (rep : S -> course -> N -> Prop) cap',
  follows late m m' -> falters PB mo cap mem rep -> (forall n, wf (fst (f n))) ->
  Halts cap' (stick_rep rep (snd (f O)) (next f)) a any m' ->
  stick_rep rep (snd (f O)) (next f) (p_buf p, None) (fst (f O)) a ->
  exists r p' k, m p = (r, p') /\ m' (stuck p None) = (r, stuck p' k) /\ done r /\
    (late = false -> k = None \/ r = Err (snd (f O))) /\
    (exists new, p_log p' = new ++ p_log p /\ Forall (fun k => k <= cap') new) /\
    match k with None => exists n, goes_on PB mo cap mem p f a n p' | Some _ => passes PB mo cap mem p f a p' end.
Proof.
  intros late A m m' p f a rep cap' Hm HF Hw Hh Hr.
  destruct (Hh (stuck p None) (fst (f O)) 0) as (r & q' & l' & n & E & Hd & _ & Hs); [now rewrite N.add_0_r|apply Hw|].
  specialize (Hm p). rewrite E in Hm. destruct (m p) as [r1 p'].
  assert (G : r1 = r /\ exists k, q' = stuck p' k /\ (late = false -> k = None \/ (exists e, r = Err e /\ k = Some e))).
  { destruct r1 as [x|e| |], r as [y|e'| |]; try contradiction; destruct Hm as (E1 & k & Ek & Hk).
    - split; [now subst|]. exists k. split; [exact Ek|]. intros L. left. now apply Hk.
    - split; [now subst|]. exists k. split; [exact Ek|]. intros L. destruct (Hk L) as [H|H]; [now left|right]. subst. eauto. }
  destruct G as (-> & k & -> & Hk). exists r, p', k. split; [reflexivity|]. split; [exact E|]. split; [exact Hd|].
  destruct (st_len _ _ _ _ _ _ _ _ _ Hs) as (n' & Hn & El & En & Eo). rewrite N.add_0_l in En. subst n' l'.
  pose proof (st_cfg _ _ _ _ _ _ _ _ _ Hs) as Ec. pose proof (st_rep _ _ _ _ _ _ _ _ _ Hs) as Hr'.
  cbn [stuck p_cfg p_off p_buf] in *. destruct k as [e'|]; cbn [stick_rep snd fst] in Hr'.
  - destruct Hr' as (-> & El & h & Hrh & Hh2).
    assert (L : n = len (fst (f O))) by (apply (f_equal len) in El; rewrite len_drop in El; change (len (@nil N)) with 0 in El; lia).
    split; [|split; [exact (st_log _ _ _ _ _ _ _ _ _ Hs)|]].
    + intros L2. destruct (Hk L2) as [H|(e1 & H1 & H2)]; [discriminate|right; congruence].
    + split; [exact Ec|]. rewrite <- L. split; [exact Eo|]. exists rep, h. split; [exact HF|]. split; [exact Hrh|].
      intros i. split; [apply Hh2|apply Hw].
  - split; [now left|]. split; [exact (st_log _ _ _ _ _ _ _ _ _ Hs)|].
    exists n. destruct Hr' as (h & Hrh & E0 & Hn2). split; [exact Hn|]. split; [exact Ec|]. split; [exact Eo|].
    exists rep, h. split; [exact HF|]. split; [exact Hrh|]. intros [|i]; cbn [onward fst].
    + split; [exact E0|]. apply wf_drop, Hw.
    + split; [apply Hn2|apply Hw].
Qed.
End Run.

(** * Nothing but the source fails *)

Section Points.
Context (pl : platform) {S : Type} (PB : parsebuf S).
Definition points {A : Type} (m : M (S * option perror) A) : Prop :=
  forall p, match m (stuck p None) with
    | (Err e, q) => exists p', q = stuck p' (Some e)
    | (Ok _, q) => exists p', q = stuck p' None
    | _ => True
    end.

Lemma points_bind : forall A B (m : M _ A) (k : A -> M _ B), points m -> (forall a, points (k a)) -> points (bind m k).
Proof.
  intros A B m k Hm Hk p. unfold bind. specialize (Hm p). destruct (m (stuck p None)) as [[a|e| |] q]; try exact Hm.
  destruct Hm as (p' & ->). apply Hk.
Qed.
Lemma points_ret : forall A (a : A), points (ret a).
Proof. intros A a p. now exists p. Qed.
Lemma points_cfg : points get_cfg.
Proof. intros p. now exists p. Qed.
Lemma points_chunk : points (m_chunk (stick PB)).
Proof.
  intros p. unfold m_chunk. cbn [stick pb_chunk p_buf stuck]. destruct (pb_chunk PB (p_buf p)) as [[c|e| |] s]; try exact I;
    now exists (mkParser (p_cfg p) s (p_off p) (p_log p)).
Qed.
Lemma points_advance : forall n, points (m_advance (stick PB) n).
Proof.
  intros n p. unfold m_advance. cbn [stick pb_advance p_buf stuck].
  destruct (pb_advance PB (p_buf p) n) as [[c|e| |] s]; try exact I;
    now exists (mkParser (p_cfg p) s (p_off p + n) (p_log p)).
Qed.
Lemma points_loop : forall St B (body : St -> M _ (St + B)) x, (forall x, points (body x)) -> points (loop body x).
Proof.
  intros St B body x H.
  assert (Hp : forall n x, points (loop_pos body n x)).
  { induction n as [n IH|n IH|]; intros y; cbn [loop_pos]; [| |apply H].
    - apply points_bind; [apply H|]. intros [z|b]; [|apply points_ret].
      apply points_bind; [apply IH|]. intros [u|b]; [apply IH|apply points_ret].
    - apply points_bind; [apply IH|]. intros [z|b]; [apply IH|apply points_ret]. }
  unfold loop. apply points_bind; [apply Hp|]. intros [y|b]; [intros p; exact I|apply points_ret].
Qed.
Lemma points_array : forall n, points (parse_array (stick PB) n).
Proof.
  intros n. unfold parse_array, parse_to_slice. apply points_bind; [apply points_chunk|]. intros c.
  destruct (len (chunk_data c) <? n).
  - apply points_loop. intros [k d]. destruct (k =? 0); [apply points_ret|].
    apply points_bind; [apply points_chunk|]. intros c2. cbv zeta. apply points_bind; [apply points_advance|].
    intros _. apply points_ret.
  - apply points_bind; [apply points_advance|]. intros _. apply points_ret.
Qed.
Lemma points_header : points (parse_header pl (stick PB)).
Proof.
  unfold parse_header, parse_u16, parse_u32.
  repeat (apply points_bind; [repeat (apply points_bind; [first [apply points_array|apply points_cfg]|intros ?]); apply points_ret|intros ?]).
  apply points_ret.
Qed.
Lemma points_split : forall n, points (split_at (stick PB) n).
Proof.
  intros n. unfold split_at. apply points_bind; [|intros q; apply points_bind; [apply points_cfg|intros c; apply points_ret]].
  unfold cursor_new. apply points_bind; [|intros cs; apply points_ret].
  apply points_loop. intros [k d]. destruct (k =? 0); [apply points_ret|]. apply points_bind; [apply points_chunk|].
  intros c2. cbv zeta. apply points_bind; [apply points_advance|]. intros _. apply points_ret.
Qed.
End Points.

(** * Records *)

Lemma follows_collect_with_header : forall pl S (PB : parsebuf S) h,
  follows false (collect_with_header pl PB h) (collect_with_header pl (stick PB) h).
Proof.
  intros pl S PB h. unfold collect_with_header. apply follows_bind; [apply follows_metadata_with_header|]. intros [q md].
  destruct (cursor_as_slice (p_buf q)); (apply follows_bind; [apply follows_sub|]; intros b; apply follows_ret).
Qed.
Lemma follows_collect : forall pl S (PB : parsebuf S), follows false (collect pl PB) (collect pl (stick PB)).
Proof. intros pl S PB. unfold collect. apply follows_bind; [apply follows_header|]. intros h. apply follows_collect_with_header. Qed.

Definition still {A : Type} {S : Type} (m : M S A) : Prop :=
  forall p, let p' := snd (m p) in p_cfg p' = p_cfg p /\ p_buf p' = p_buf p /\ p_off p' = p_off p.
Lemma still_bind : forall S A B (m : M S A) (k : A -> M S B), still m -> (forall a, still (k a)) -> still (bind m k).
Proof.
  intros S A B m k Hm Hk p. unfold bind. specialize (Hm p). destruct (m p) as [[a|e| |] p1]; try exact Hm.
  specialize (Hk a p1). cbn [snd] in *. cbv zeta in *. destruct Hm as (-> & -> & ->) || (destruct Hm as (? & ? & ?), Hk as (? & ? & ?)).
  all: repeat split; congruence.
Qed.
Lemma still_lift : forall S A (o : out A), still (S := S) (lift o).
Proof. intros S A o p. repeat split. Qed.
Lemma still_sub : forall S S2 A (m : M S2 A) q, still (S := S) (sub m q).
Proof. intros S S2 A m q p. unfold sub. destruct (m q). repeat split. Qed.

Lemma bind_at : forall S A B (m m0 : M S A) (k : A -> M S B) p p1, m p = m0 p1 -> bind m k p = bind m0 k p1.
Proof. intros S A B m m0 k p p1 E. unfold bind. now rewrite E. Qed.

(** What is done after the record was split off. *)
Lemma collect_still : forall pl S (PB : parsebuf S) h n p rp p1, checked_sub (h_size h) 8 = Some n ->
  split_at PB n p = (Ok rp, p1) ->
  let p' := snd (collect_with_header pl PB h p) in p_cfg p' = p_cfg p1 /\ p_buf p' = p_buf p1 /\ p_off p' = p_off p1.
Proof.
  intros pl S PB h n p rp p1 En Es. unfold collect_with_header.
  assert (K : exists m, parse_metadata_with_header pl PB h p = m p1 /\ still m).
  { unfold parse_metadata_with_header. rewrite En. rewrite (bind_eq _ _ _ _ _ _ _ Es).
    eexists. split; [reflexivity|]. destruct (_ || _); [exact (still_lift _ _ (Ok _))|].
    destruct (checked_sub n _); [|exact (still_lift _ _ (Err _))].
    apply still_bind; [apply still_sub|]. intros r. exact (still_lift _ _ (Ok _)). }
  destruct K as (m & Em & Hm).
  rewrite (bind_at _ _ _ _ m _ _ p1 Em). refine (still_bind _ _ _ m _ Hm _ p1). intros [q md].
  destruct (cursor_as_slice (p_buf q)); (apply still_bind; [apply still_sub|intros b; exact (still_lift _ _ (Ok _))]).
Qed.

Section Whole.
Context (pl : platform) {S : Type} (PB : parsebuf S) (mo : mode) (cap : N) (mem : memory)
  (p : parser S) (f : course) (a : N) (rep : S -> course -> N -> Prop).
Context (HC : contract (stick PB) mo (snd (f O)) cap mem (stick_rep rep (snd (f O)) (next f)))
  (Hr : stick_rep rep (snd (f O)) (next f) (p_buf p, None) (fst (f O)) a) (Hw : wf (fst (f O))).
Let o := order_of pl (c_endian (p_cfg p)).

Lemma header_points : forall t m size rest, t < 2 ^ 32 -> m < 2 ^ 16 -> size < 2 ^ 16 ->
  fst (f O) = w_header o t m size ++ rest ->
  exists p1, parse_header pl (stick PB) (stuck p None) = (Ok (mkHeader t m size), stuck p1 None) /\
    stick_rep rep (snd (f O)) (next f) (p_buf p1, None) rest (a + 8) /\ p_off p1 = p_off p + 8.
Proof.
  intros t m size rest Ht Hm Hs El. rewrite El in Hr, Hw.
  destruct (header_exact pl (stick PB) mo (snd (f O)) cap mem _ HC (stuck p None) t m size rest a Ht Hm Hs Hr Hw)
    as (q & E & Hr1 & Hc1 & Ho1).
  pose proof (points_header pl PB p) as P. rewrite E in P. destruct P as (p1 & ->). eauto.
Qed.

Lemma collect_short : len (fst (f O)) < 8 ->
  exists p', collect pl (stick PB) (stuck p None) = (Err (snd (f O)), stuck p' (Some (snd (f O)))).
Proof.
  intros Hl. destruct (short_header pl _ (stick PB) mo (snd (f O)) cap mem (stuck p None) (fst (f O)) a Hl) as (q & E).
  { exists (stick_rep rep (snd (f O)) (next f)). auto. }
  pose proof (points_header pl PB p) as P. rewrite E in P. destruct P as (p1 & ->). exists p1. unfold collect, bind. now rewrite E.
Qed.

Lemma collect_small : forall t m size rest, t < 2 ^ 32 -> m < 2 ^ 16 -> size < 8 -> fst (f O) = w_header o t m size ++ rest ->
  exists p', collect pl (stick PB) (stuck p None) = (Err (mkError KInvalidRecord (Some (SrcMsg MsgHeaderTooSmall))), stuck p' None) /\
    p_off p' = p_off p + 8.
Proof.
  intros t m size rest Ht Hm Hs El. destruct (header_points t m size rest Ht Hm ltac:(lia) El) as (p1 & E & _ & Ho).
  exists p1. split; [|exact Ho]. unfold collect. rewrite (bind_eq _ _ _ _ _ _ _ E).
  unfold collect_with_header, parse_metadata_with_header, checked_sub. cbn [h_size].
  replace (8 <=? size) with false by (symmetry; apply N.leb_gt; lia). reflexivity.
Qed.

Lemma collect_cut : forall t m size rest, t < 2 ^ 32 -> m < 2 ^ 16 -> size < 2 ^ 16 -> 8 + len rest < size ->
  fst (f O) = w_header o t m size ++ rest ->
  exists p', collect pl (stick PB) (stuck p None) = (Err (snd (f O)), stuck p' (Some (snd (f O)))).
Proof.
  intros t m size rest Ht Hm Hs Hlt El. destruct (header_points t m size rest Ht Hm Hs El) as (p1 & E & Hr1 & Ho).
  assert (Hwr : wf rest) by (rewrite El in Hw; now apply wf_app_r in Hw).
  rewrite <- (N.add_0_r (a + 8)) in Hr1.
  pose proof (split_spec (stick PB) mo (snd (f O)) cap mem _ (a + 8) HC (size - 8) (stuck p1 None) rest 0 Hr1 Hwr) as H.
  unfold collect. rewrite (bind_eq _ _ _ _ _ _ _ E). unfold collect_with_header, parse_metadata_with_header, checked_sub.
  cbn [h_size h_type]. replace (8 <=? size) with true by (symmetry; apply N.leb_le; lia).
  destruct (f_split (size - 8) _ rest 0) as [st l' pos' ev|e l' pos' ev].
  - destruct H as (q & p2 & _ & _ & _ & _ & _ & Hn & _). lia.
  - destruct H as (p2 & E2 & _ & -> & _). pose proof (points_split PB (size - 8) p1) as P. rewrite E2 in P.
    destruct P as (p3 & ->). exists p3. unfold bind. now rewrite E2.
Qed.

Lemma collect_whole : forall t m size rest, t < 2 ^ 32 -> m < 2 ^ 16 -> 8 <= size < 2 ^ 16 -> size <= 8 + len rest ->
  fst (f O) = w_header o t m size ++ rest ->
  exists r p', collect pl (stick PB) (stuck p None) = (r, stuck p' None) /\ p_off p' = p_off p + size.
Proof.
  intros t m size rest Ht Hm Hs Hlt El. destruct (header_points t m size rest Ht Hm ltac:(lia) El) as (p1 & E & Hr1 & Ho).
  assert (Hwr : wf rest) by (rewrite El in Hw; now apply wf_app_r in Hw).
  rewrite <- (N.add_0_r (a + 8)) in Hr1.
  pose proof (split_spec (stick PB) mo (snd (f O)) cap mem _ (a + 8) HC (size - 8) (stuck p1 None) rest 0 Hr1 Hwr) as H.
  unfold collect. rewrite (bind_eq _ _ _ _ _ _ _ E).
  assert (K : exists rp p2, split_at (stick PB) (size - 8) (stuck p1 None) = (Ok rp, stuck p2 None) /\ p_off p2 = p_off p1 + (size - 8)).
  { pose proof (points_split PB (size - 8) p1) as P.
    destruct (f_split (size - 8) _ rest 0) as [st l' pos' ev|e l' pos' ev] eqn:Ef.
    - destruct H as (q & p2 & E2 & _ & Hst & _ & _ & _ & _ & _ & ->). rewrite E2 in P. destruct P as (p3 & ->).
      exists q, p3. split; [exact E2|]. destruct (st_len _ _ _ _ _ _ _ _ _ Hst) as (n & _ & _ & En & Eo). cbn [stuck p_off] in Eo. lia.
    - exfalso. unfold f_split in Ef. destruct (size - 8 =? 0) eqn:E8; [discriminate|]. unfold f_take in Ef. apply N.eqb_neq in E8.
      destruct rest as [|b rest]; [cbn in Hlt; lia|]. destruct (N.ltb_spec (len (b :: rest)) (size - 8)); [lia|discriminate]. }
  destruct K as (rp & p2 & E2 & Ho2).
  pose proof (collect_still pl _ (stick PB) (mkHeader t m size) (size - 8) (stuck p1 None) rp (stuck p2 None)) as G.
  destruct (collect_with_header pl (stick PB) (mkHeader t m size) (stuck p1 None)) as [r q]. cbn [snd] in G. cbv zeta in G.
  destruct G as (G1 & G2 & G3).
  - unfold checked_sub. cbn [h_size]. now replace (8 <=? size) with true by (symmetry; apply N.leb_le; lia).
  - exact E2.
  - destruct q as [c b of lg]. cbn [stuck p_cfg p_buf p_off] in *. subst. exists r, (mkParser (p_cfg p2) (p_buf p2) (p_off p2) lg).
    split; [reflexivity|]. cbn [p_off]. lia.
Qed.
End Whole.

(** A record, from the source and from the one that repeats the first failure. *)
Lemma record_both : forall pl S (PB : parsebuf S) mo cap mem p f a, pl_ok pl -> cap <= isize_max pl ->
  faltering PB mo cap mem p f a ->
  exists rep r p' k, contract (stick PB) mo (snd (f O)) cap mem (stick_rep rep (snd (f O)) (next f)) /\
    stick_rep rep (snd (f O)) (next f) (p_buf p, None) (fst (f O)) a /\ wf (fst (f O)) /\
    gives pl PB p r p' /\ gives pl (stick PB) (stuck p None) r (stuck p' k) /\
    match k with
    | None => exists n, goes_on PB mo cap mem p f a n p'
    | Some _ => r = inl (snd (f O)) /\ passes PB mo cap mem p f a p'
    end /\
    exists x, collect pl (stick PB) (stuck p None) = (x, stuck p' k) /\
      match r with inl e => x = Err e | inr y => x = Ok y end.
Proof.
  intros pl S PB mo cap mem p f a Hpl Hcap Hp. pose proof (record_cap pl Hpl) as H16.
  destruct (faltering_stuck PB mo cap mem cap (N.le_refl _) p f a Hp) as (rep & HF & HC & Hr & Hw).
  destruct (faltering_stuck PB mo cap mem (N.max cap 65536) ltac:(lia) p f a Hp) as (rep' & HF' & HC' & Hr' & Hw').
  assert (Hh : Halts (N.max cap 65536) (stick_rep rep' (snd (f O)) (next f)) a any (collect pl (stick PB))).
  { eapply Halts_any, Halts_safe. eapply s_collect; [exact HC'|lia|lia]. }
  destruct (follows_steps PB mo cap mem false _ _ _ p f a rep' _ (follows_collect pl S PB) HF' Hw' Hh Hr')
    as (x & p' & k & E & E' & Hd & Hk & _ & G).
  exists rep. assert (D : exists r, match r with inl e => x = Err e | inr y => x = Ok y end).
  { destruct x as [y|e| |]; cbn [done] in Hd; try contradiction; [exists (inr y)|exists (inl e)]; reflexivity. }
  destruct D as (r & Dr). exists r, p', k. split; [exact HC|]. split; [exact Hr|]. split; [apply Hw|].
  assert (K : forall S2 (PB2 : parsebuf S2) q q', collect pl PB2 q = (x, q') -> gives pl PB2 q r q').
  { intros S2 PB2 q q' Eq O V. rewrite record_eq. unfold bind. rewrite Eq. destruct r as [e|[b md]]; subst x; [reflexivity|].
    unfold lift. cbn [fst snd]. now rewrite deliver_answer. }
  split; [now apply K|]. split; [now apply K|]. split.
  - destruct k as [e|]; [|exact G]. split; [|exact G]. destruct (Hk eq_refl) as [H|H]; [discriminate|].
    destruct r as [e'|y]; congruence.
  - eauto.
Qed.

(** * A reader that falters *)

Definition trickle_rep (s : trickle) (f : course) (a : N) : Prop :=
  forall n, f n = pieces (ahead (tr_buf s) (tr_reads s)) n.

Lemma ahead_front : forall rs b n, pieces (ahead b rs) n = match n with
  | O => (b ++ fst (pieces (ahead [] rs) O), snd (pieces (ahead [] rs) O))
  | _ => pieces (ahead [] rs) n end.
Proof.
  induction rs as [|[[|y d]|code e] rs IH]; intros b n; cbn [ahead].
  - destruct n as [|[|n]]; cbn; rewrite ?app_nil_r; reflexivity.
  - destruct n as [|n]; cbn; rewrite ?app_nil_r; reflexivity.
  - cbn [app]. rewrite (IH (b ++ y :: d)). destruct n; rewrite (IH (y :: d)); [|reflexivity].
    cbn [app fst snd]. now rewrite <- app_assoc.
  - destruct n as [|n]; cbn; rewrite ?app_nil_r; reflexivity.
Qed.

Lemma trickle_falters : forall cap mem, 16384 <= cap -> falters trickle_buf NoExt cap mem trickle_rep.
Proof.
  intros cap mem Hc. constructor.
  - intros [b rs] f a H E. unfold trickle_rep in H. cbn [tr_buf tr_reads] in H.
    pose proof (H O) as H0. rewrite ahead_front in H0. rewrite H0 in E. cbn [fst] in E. apply app_eq_nil in E as [-> E].
    cbn [trickle_buf pb_chunk trickle_chunk tr_buf tr_reads]. rewrite H0. cbn [snd].
    destruct rs as [|[[|y d]|code e] rs]; cbn [ahead app] in *.
    + eexists. split; [reflexivity|]. intros n. unfold next. rewrite H. now destruct n as [|[|n]].
    + eexists. split; [reflexivity|]. intros n. unfold next. rewrite H. reflexivity.
    + rewrite ahead_front in E. discriminate E.
    + eexists. split; [reflexivity|]. intros n. unfold next. rewrite H. reflexivity.
  - intros [b rs] f a H Hne. unfold trickle_rep in H. cbn [tr_buf tr_reads] in H.
    assert (K : forall d rs', d <> [] -> (forall n, f n = pieces (ahead d rs') n) ->
      d <> [] /\ (exists r, fst (f O) = d ++ r) /\ forall n, n <= len d -> trickle_rep (mkTrickle (drop n d) rs') (onward n f) (a + n)).
    { intros d rs' Hd Hf. split; [exact Hd|]. split.
      - rewrite Hf, ahead_front. cbn [fst]. eauto.
      - intros n Hn k. cbn [tr_buf tr_reads]. unfold onward. rewrite ahead_front. destruct k as [|k].
        + rewrite Hf, ahead_front. cbn [fst snd]. now rewrite drop_app_le by exact Hn.
        + rewrite Hf, ahead_front. reflexivity. }
    cbn [trickle_buf pb_chunk pb_advance trickle_chunk tr_buf tr_reads]. destruct b as [|y b].
    + destruct rs as [|[[|y d]|code e] rs]; cbn [ahead app] in *; try (rewrite H in Hne; cbn in Hne; contradiction).
      destruct (K (y :: d) rs ltac:(discriminate) H) as (K1 & K2 & K3).
      exists (Temporary (y :: d)). eexists. split; [reflexivity|]. split; [exact H|]. split; [exact K1|]. split; [exact K2|].
      split; [discriminate|]. intros n Hn. eexists. split; [reflexivity|]. now apply K3.
    + destruct (K (y :: b) rs ltac:(discriminate) H) as (K1 & K2 & K3).
      exists (Temporary (y :: b)). eexists. split; [reflexivity|]. split; [exact H|]. split; [exact K1|]. split; [exact K2|].
      split; [discriminate|]. intros n Hn. eexists. split; [reflexivity|]. now apply K3.
  - intros s f a h _ Eh. discriminate Eh.
  - intros s f a _ _. exact Hc.
Qed.

(** * Programs which do not stop at a failure *)

Lemma rest_refl : forall f, rest_of f f.
Proof. intros f. exists O, 0. intros [|k]; cbn [onward Nat.add]; rewrite ?drop_0; [now destruct (f O)|reflexivity]. Qed.
Lemma rest_trans : forall f g h, rest_of f g -> rest_of g h -> rest_of f h.
Proof.
  intros f g h (j & n & E) (j2 & n2 & E2). destruct j2 as [|j2].
  - exists j, (n + n2). intros k. rewrite E2. unfold onward. cbn [Nat.add]. destruct k as [|k]; rewrite E; cbn [onward fst snd].
    + now rewrite drop_drop.
    + reflexivity.
  - assert (K : forall i, g (Datatypes.S j2 + i)%nat = f (j + Datatypes.S j2 + i)%nat).
    { intros i. rewrite E. cbn [onward Nat.add]. f_equal. lia. }
    exists (j + Datatypes.S j2)%nat, n2. intros k. rewrite E2. unfold onward. destruct k as [|k]; now rewrite K.
Qed.

Section Copes.
Context {S : Type} (PB : parsebuf S) (mo : mode) (cap cap' : N) (mem : memory) (Hle : cap <= cap').

Definition Copes {A : Type} (m : M S A) : Prop :=
  forall p f a, faltering PB mo cap mem p f a ->
  exists r p' g a', m p = (r, p') /\ done r /\ faltering PB mo cap mem p' g a' /\ rest_of f g /\
    p_cfg p' = p_cfg p /\ (exists new, p_log p' = new ++ p_log p /\ Forall (fun k => k <= cap') new).

Lemma Copes_bind : forall A B (m : M S A) (k : A -> M S B), Copes m -> (forall a, Copes (k a)) -> Copes (bind m k).
Proof.
  intros A B m k Hm Hk p f a Hp. destruct (Hm p f a Hp) as (r & p1 & g & a1 & E & Hd & Hf & Hr & Hc & new & El & Hn).
  unfold bind. rewrite E. destruct r as [x|e| |]; cbn [done] in Hd; try contradiction.
  - destruct (Hk x p1 g a1 Hf) as (r2 & p2 & g2 & a2 & E2 & Hd2 & Hf2 & Hr2 & Hc2 & new2 & El2 & Hn2).
    exists r2, p2, g2, a2. split; [exact E2|]. split; [exact Hd2|]. split; [exact Hf2|].
    split; [eapply rest_trans; eassumption|]. split; [congruence|]. exists (new2 ++ new). split; [rewrite El2, El; apply app_assoc|].
    apply Forall_app. now split.
  - exists (Err e), p1, g, a1. eauto 10.
Qed.
Lemma Copes_lift : forall A (o : out A), done o -> Copes (lift o).
Proof.
  intros A o Ho p f a Hp. exists o, p, f, a. split; [reflexivity|]. split; [exact Ho|]. split; [exact Hp|].
  split; [apply rest_refl|]. split; [reflexivity|]. exists []. auto.
Qed.
Lemma Copes_ret : forall A (x : A), Copes (ret x).
Proof. intros. now apply Copes_lift with (o := Ok x). Qed.
Lemma Copes_try : forall A (m : M S A), Copes m ->
  Copes (fun p => match m p with
                  | (Ok a, p') => (Ok (inr a), p')
                  | (Err e, p') => (Ok (inl e), p')
                  | (Panic, p') => (Panic, p')
                  | (Fuel, p') => (Fuel, p')
                  end).
Proof.
  intros A m Hm p f a Hp. destruct (Hm p f a Hp) as (r & p1 & g & a1 & E & Hd & H). rewrite E.
  destruct r as [x|e| |]; cbn [done] in Hd; try contradiction;
    [exists (Ok (inr x))|exists (Ok (inl e))]; exists p1, g, a1; (split; [reflexivity|]); (split; [exact I|exact H]).
Qed.

(** What follows a source up to the first failure copes. *)
Lemma Copes_follows : forall late A (m : M S A) m', follows late m m' ->
  (forall fin rep a0, contract (stick PB) mo fin cap' mem rep -> Halts cap' rep a0 any m') -> Copes m.
Proof.
  intros late A m m' Hm Hh p f a Hp. destruct (faltering_stuck PB mo cap mem cap' Hle p f a Hp) as (rep & HF & HC & Hr & Hw).
  destruct (follows_steps PB mo cap mem late A m m' p f a rep cap' Hm HF Hw (Hh _ _ _ HC) Hr)
    as (r & p' & k & E & _ & Hd & _ & Hl & G).
  exists r, p'. destruct k as [e|].
  - destruct G as (Hc & Ho & Hf). exists (next f), (a + len (fst (f O))). split; [exact E|]. split; [exact Hd|].
    split; [exact Hf|]. split; [|auto]. exists 1%nat, 0. intros [|k]; unfold next; cbn [onward Nat.add]; rewrite ?drop_0; [now destruct (f 1%nat)|reflexivity].
  - destruct G as (n & _ & Hc & Ho & Hf). exists (onward n f), (a + n). split; [exact E|]. split; [exact Hd|].
    split; [exact Hf|]. split; [|auto]. exists O, n. intros [|k]; reflexivity.
Qed.

Lemma Copes_repeat : forall pl A (m : M S A) size n,
  cap' <= isize_max pl -> Copes m -> n < 2 ^ 64 -> Copes (parse_repeated_with pl PB size m n).
Proof.
  intros pl A m size n Hcap Hm Hn p f a Hp. unfold parse_repeated_with.
  assert (E1 : exists b, safe_capacity_bound pl PB size p = (Ok b, p) /\ N.min n b * size <= cap').
  { unfold safe_capacity_bound. destruct (N.eqb_spec size 0) as [->|Hs].
    - eexists. split; [reflexivity|]. lia.
    - set (h := unwrap_or (pb_hint PB (p_buf p)) 16384).
      assert (Hh : h <= cap').
      { etransitivity; [|exact Hle]. destruct Hp as (rep & g & HF & Hr & _). unfold h. destruct (pb_hint PB (p_buf p)) as [x|] eqn:Eh; cbn.
        - exact (fl_hint HF _ _ _ _ Hr Eh).
        - exact (fl_nohint HF _ _ _ Hr Eh). }
      exists (h / size). split; [reflexivity|]. pose proof (N.mul_div_le h size Hs). nia. }
  destruct E1 as (b & E1 & Hb). rewrite (bind_eq _ _ _ _ _ _ _ E1).
  set (p1 := mkParser (p_cfg p) (p_buf p) (p_off p) (N.min n b * size :: p_log p)).
  assert (E2 : m_alloc pl (N.min n b * size) p = (Ok tt, p1)).
  { unfold m_alloc. destruct (N.ltb_spec (isize_max pl) (N.min n b * size)); [lia|reflexivity]. }
  rewrite (bind_eq _ _ _ _ _ _ _ E2).
  set (body := fun '(n, vec) => if n =? 0 then ret (inr vec) else x <- m ;; ret (inl (n - 1, vec ++ [x]))).
  set (Q := fun (x : N * list A) (q : parser S) (res : out (list A) * parser S) =>
    forall f a, faltering PB mo cap mem q f a ->
    exists r p' g a', res = (r, p') /\ done r /\ faltering PB mo cap mem p' g a' /\ rest_of f g /\
    p_cfg p' = p_cfg q /\ (exists new, p_log p' = new ++ p_log q /\ Forall (fun k => k <= cap') new)).
  assert (G : forall k (vec : list A) q, k < 2 ^ 64 -> Q (k, vec) q (loop body (k, vec) q)).
  { intros k vec q Hk.
    apply (loop_rule body (fun k x q => fst x = k)) with (k := k); [|reflexivity|assumption].
    clear - Hm. intros k [n vec] q E. cbn [fst] in E. subst k. unfold body at 1.
    destruct (N.eqb_spec n 0) as [->|Hn].
    { cbn [ret]. intros f a Hf. apply (Copes_ret _ vec q f a Hf). }
    unfold bind, ret. destruct (m q) as [[x|e| |] q1] eqn:Em.
    - exists (n - 1). split; [lia|]. split; [reflexivity|].
      intros res HQ f a Hf. destruct (Hm q f a Hf) as (r & p' & g & a1 & E & _ & Hf1 & Hr & Hc & new & El & Hnew).
      rewrite Em in E. injection E as <- <-.
      destruct (HQ g a1 Hf1) as (r & p2 & g2 & a2 & -> & Hd & Hf2 & Hr2 & Hc2 & new2 & El2 & Hnew2).
      exists r, p2, g2, a2. split; [reflexivity|]. split; [exact Hd|]. split; [exact Hf2|].
      split; [eapply rest_trans; eassumption|]. split; [congruence|]. exists (new2 ++ new).
      split; [rewrite El2, El; apply app_assoc|]. apply Forall_app. now split.
    - intros f a Hf. destruct (Hm q f a Hf) as (r & p' & g & a1 & E & H). rewrite Em in E. injection E as <- <-.
      exists (Err e), q1, g, a1. split; [reflexivity|]. split; [exact I|apply H].
    - intros f a Hf. destruct (Hm q f a Hf) as (r & p' & g & a1 & E & Hd & _). rewrite Em in E. injection E as <- <-. contradiction.
    - intros f a Hf. destruct (Hm q f a Hf) as (r & p' & g & a1 & E & Hd & _). rewrite Em in E. injection E as <- <-. contradiction. }
  destruct (G n [] p1 Hn f a Hp) as (r & p' & g & a1 & E & Hd & Hf & Hr & Hc & new & El & Hnew).
  exists r, p', g, a1. split; [exact E|]. split; [exact Hd|]. split; [exact Hf|]. split; [exact Hr|]. split; [exact Hc|].
  unfold p1 in El. cbn [p_log] in El. exists (new ++ [N.min n b * size]). split; [rewrite El, <- app_assoc; reflexivity|].
  apply Forall_app. split; [exact Hnew|]. now constructor.
Qed.
End Copes.

Lemma run_copes : forall pl, pl_ok pl -> forall A (m : prog A) S (PB : parsebuf S) mo cap cap' mem,
  cap <= cap' -> 65536 <= cap' -> cap' <= isize_max pl -> Copes PB mo cap cap' mem (run pl m S PB).
Proof.
  intros pl Hpl A m S PB mo cap cap' mem Hle H16 Hcap.
  assert (D : forall A (m : prog A), obedient m -> Copes PB mo cap cap' mem (run pl m S PB)).
  { intros B k Hk. eapply Copes_follows; [exact Hle|now apply follows_obedient|]. intros fin rep a0 HC. now apply run_halts with (mo := mo) (fin := fin) (mem := mem). }
  induction m; try (apply D; exact I).
  - cbn [run]. apply Copes_bind; [exact IHm|]. exact H.
  - cbn [run]. apply Copes_try, IHm.
  - cbn [run]. unfold parse_if. destruct b; [apply Copes_bind; [exact IHm|intros x]|]; apply Copes_ret.
  - cbn [run]. apply Copes_repeat; [exact Hle|exact Hcap|exact IHm|].
    unfold as_usize. pose proof (N.mod_lt n (2 ^ pl_bits pl) ltac:(now apply N.pow_nonzero)).
    destruct Hpl as [E|E]; rewrite E in *; lia.
Qed.
