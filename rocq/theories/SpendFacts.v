(** What is reserved by a parser, also by one that fails.

    A field that is refused may have had its memory reserved, by what the source said was left.
    So with [T] above the offset and the hint together, at all times: a parser which is at
    [off] reserves no more than [T - off], whatever comes of it. *)
From Coq Require Import NArith List Bool Lia.
From Verif Require Import Base BaseFacts Types Platform Config Buf Parser Contract Refine.
From Verif Require Import Instances Prims Records Sample Record RefFrame Size SizeFacts.
Import ListNotations.
Open Scope N_scope.

Section Spend.
Context (pl : platform) {S : Type} (PB : parsebuf S) (I : parser S -> Prop) (T : N).
Context (HC : forall p, I p -> I (snd (m_chunk PB p))).
Context (HA : forall p c p1 n, I p -> m_chunk PB p = (Ok c, p1) -> n <= len (chunk_data c) -> I (snd (m_advance PB n p1))).
Context (HH : forall p, I p -> p_off p + unwrap_or (pb_hint PB (p_buf p)) 16384 <= T).
Context (HL : forall p l, I p -> I (mkParser (p_cfg p) (p_buf p) (p_off p) l)).

(** Nothing is reserved. *)
Definition Quiet {A : Type} (m : M S A) : Prop :=
  forall p, I p -> I (snd (m p)) /\ p_off p <= p_off (snd (m p)) /\ p_log (snd (m p)) = p_log p.

(** Up to what was taken, or up to [T] by one that fails. *)
Definition Thrifty {A : Type} (m : M S A) : Prop :=
  forall p, I p -> I (snd (m p)) /\ p_off p <= p_off (snd (m p)) /\
    total (p_log (snd (m p))) + p_off p <= total (p_log p) + match fst (m p) with Ok _ => p_off (snd (m p)) | _ => T end.

Lemma off_le : forall p, I p -> p_off p <= T.
Proof. intros p H. pose proof (HH p H). lia. Qed.

Lemma Quiet_Thrifty : forall A (m : M S A), Quiet m -> Thrifty m.
Proof.
  intros A m H p Hp. destruct (H p Hp) as (H1 & H2 & H3). pose proof (off_le p Hp). rewrite H3.
  split; [exact H1|]. split; [exact H2|]. destruct (fst (m p)); lia.
Qed.

Lemma Quiet_bind : forall A B (m : M S A) (k : A -> M S B), Quiet m -> (forall x, Quiet (k x)) -> Quiet (bind m k).
Proof.
  intros A B m k Hm Hk p Hp. destruct (Hm p Hp) as (H1 & H2 & H3). unfold bind.
  destruct (m p) as [[x|e| |] p1]; cbn [fst snd] in *; auto.
  destruct (Hk x p1 H1) as (H4 & H5 & H6). split; [exact H4|]. split; [lia|congruence].
Qed.
Lemma Thrifty_bind : forall A B (m : M S A) (k : A -> M S B), Thrifty m -> (forall x, Thrifty (k x)) -> Thrifty (bind m k).
Proof.
  intros A B m k Hm Hk p Hp. destruct (Hm p Hp) as (H1 & H2 & H3). unfold bind.
  destruct (m p) as [[x|e| |] p1]; cbn [fst snd] in *; auto.
  destruct (Hk x p1 H1) as (H4 & H5 & H6). split; [exact H4|]. split; [lia|].
  destruct (fst (k x p1)); lia.
Qed.

Lemma Quiet_lift : forall A (o : out A), Quiet (lift o).
Proof. intros A o p Hp. cbn. split; [exact Hp|]. split; [lia|reflexivity]. Qed.
Lemma Quiet_ret : forall A (x : A), Quiet (ret x). Proof. intros A x. exact (Quiet_lift A (Ok x)). Qed.
Lemma Quiet_fail : forall A e, Quiet (@fail S A e). Proof. intros A e. exact (Quiet_lift A (Err e)). Qed.
Lemma Quiet_panic : forall A, Quiet (@panic S A). Proof. intros A. exact (Quiet_lift A Panic). Qed.
Lemma Quiet_cfg : Quiet get_cfg. Proof. intros p Hp. cbn. split; [exact Hp|]. split; [lia|reflexivity]. Qed.
Lemma Quiet_off : Quiet get_off. Proof. intros p Hp. cbn. split; [exact Hp|]. split; [lia|reflexivity]. Qed.
Lemma Quiet_if : forall A b (m : M S A), Quiet m -> Quiet (parse_if b m).
Proof. intros A [|] m H; [apply Quiet_bind; [exact H|intros; apply Quiet_ret]|apply Quiet_ret]. Qed.
Lemma Thrifty_if : forall A b (m : M S A), Thrifty m -> Thrifty (parse_if b m).
Proof.
  intros A [|] m H; [apply Thrifty_bind; [exact H|intros]|]; apply Quiet_Thrifty, Quiet_ret.
Qed.

Lemma Quiet_loop : forall St B (body : St -> M S (St + B)) x, (forall x, Quiet (body x)) -> Quiet (loop body x).
Proof.
  intros St B body x H. unfold loop. apply Quiet_bind.
  - generalize loop_fuel. intros n. revert x. induction n as [n IH|n IH|]; intros x; cbn [loop_pos].
    + apply Quiet_bind; [apply H|]. intros [y|b]; [|apply Quiet_ret].
      apply Quiet_bind; [apply IH|]. intros [z|b]; [apply IH|apply Quiet_ret].
    + apply Quiet_bind; [apply IH|]. intros [y|b]; [apply IH|apply Quiet_ret].
    + apply H.
  - intros [y|b]; [apply Quiet_lift|apply Quiet_ret].
Qed.

(** After a chunk was looked at, some of it may be taken. *)
Definition After {A : Type} (c : chunk) (m : M S A) : Prop :=
  forall p p1, I p -> m_chunk PB p = (Ok c, p1) -> I (snd (m p1)) /\ p_off p1 <= p_off (snd (m p1)) /\ p_log (snd (m p1)) = p_log p1.

Lemma chunk_same : forall p, p_off (snd (m_chunk PB p)) = p_off p /\ p_log (snd (m_chunk PB p)) = p_log p.
Proof. intros p. unfold m_chunk. destruct (pb_chunk PB (p_buf p)). cbn. auto. Qed.
Lemma advance_same : forall n p, p_off (snd (m_advance PB n p)) = p_off p + n /\ p_log (snd (m_advance PB n p)) = p_log p.
Proof. intros n p. unfold m_advance. destruct (pb_advance PB (p_buf p) n). cbn. auto. Qed.

Lemma Quiet_chunk : forall A (k : chunk -> M S A), (forall c, After c (k c)) -> Quiet (bind (m_chunk PB) k).
Proof.
  intros A k Hk p Hp. pose proof (HC p Hp) as H1. destruct (chunk_same p) as [H2 H3]. unfold bind.
  destruct (m_chunk PB p) as [[c|e| |] p1] eqn:E; cbn [snd] in *; try (split; [exact H1|]; split; [lia|exact H3]).
  destruct (Hk c p p1 Hp E) as (H4 & H5 & H6). split; [exact H4|]. split; [lia|congruence].
Qed.
Lemma After_quiet : forall A c (m : M S A), Quiet m -> After c m.
Proof. intros A c m H p p1 Hp E. apply H. pose proof (HC p Hp) as H1. now rewrite E in H1. Qed.
Lemma After_advance : forall A c n (k : unit -> M S A), n <= len (chunk_data c) -> (forall u, Quiet (k u)) ->
  After c (bind (m_advance PB n) k).
Proof.
  intros A c n k Hn Hk p p1 Hp E. pose proof (HA p c p1 n Hp E Hn) as H1. destruct (advance_same n p1) as [H2 H3]. unfold bind.
  destruct (m_advance PB n p1) as [[u|e| |] p2]; cbn [snd] in *; try (split; [exact H1|]; split; [lia|exact H3]).
  destruct (Hk u p2 H1) as (H4 & H5 & H6). split; [exact H4|]. split; [lia|congruence].
Qed.

Lemma trunc_le : forall c n, len (chunk_data (chunk_truncate c n)) <= len (chunk_data c).
Proof. intros c n. rewrite chunk_truncate_data, len_take. lia. Qed.

Lemma quiet_to_slice : forall n, Quiet (parse_to_slice PB n).
Proof.
  intros n. apply Quiet_loop. intros [k d]. destruct (k =? 0); [apply Quiet_ret|]. apply Quiet_chunk. intros c. cbv zeta.
  apply After_advance; [lia|]. intros. apply Quiet_ret.
Qed.
Lemma quiet_ignored : forall n, Quiet (parse_bytes_ignored PB n).
Proof.
  intros n. apply Quiet_loop. intros k. destruct (k =? 0); [apply Quiet_ret|]. apply Quiet_chunk. intros c. cbv zeta.
  apply After_advance; [lia|]. intros. apply Quiet_ret.
Qed.
Lemma quiet_array : forall n, Quiet (parse_array PB n).
Proof.
  intros n. apply Quiet_chunk. intros c. destruct (N.ltb_spec (len (chunk_data c)) n).
  - apply After_quiet, quiet_to_slice.
  - apply After_advance; [lia|]. intros. apply Quiet_ret.
Qed.
Lemma quiet_direct : forall n, Quiet (parse_bytes_direct PB n).
Proof.
  intros n. apply Quiet_chunk. intros [d|a d]; [apply After_quiet, Quiet_ret|].
  destruct (N.ltb_spec (len d) n); [apply After_quiet, Quiet_ret|]. apply After_advance; [cbn; lia|]. intros. apply Quiet_ret.
Qed.
Lemma quiet_rest : Quiet (parse_rest PB).
Proof.
  apply Quiet_chunk. intros c. cbv zeta. apply After_advance; [destruct c; cbn; lia|]. intros _.
  apply Quiet_loop. intros d p Hp. pose proof (HC p Hp) as H1. destruct (chunk_same p) as [H2 H3].
  destruct (m_chunk PB p) as [[c'|e| |] p1] eqn:E; cbn [snd] in *.
  - destruct (After_advance _ c' (len (chunk_data c'))
      (fun _ => ret (inl (Owned (cow_list d ++ chunk_data c')) : cow N + cow N)) (N.le_refl _) (fun _ => Quiet_ret _ _) p p1 Hp E)
      as (H4 & H5 & H6).
    split; [exact H4|]. split; [lia|congruence].
  - destruct (is_eof e); (split; [exact H1|]; split; [cbn; lia|exact H3]).
  - split; [exact H1|]; split; [cbn; lia|exact H3].
  - split; [exact H1|]; split; [cbn; lia|exact H3].
Qed.

(** Memory for [n] bytes, no more than the source says are left; then they are read. *)
Lemma Thrifty_alloc : forall A sz n (k : unit -> M S A), (forall u, Quiet (k u)) -> Fed sz (bind (m_alloc pl n) k) ->
  forall p, I p -> n <= unwrap_or (pb_hint PB (p_buf p)) 16384 ->
  let m := bind (m_alloc pl n) k in
  I (snd (m p)) /\ p_off p <= p_off (snd (m p)) /\
    total (p_log (snd (m p))) + p_off p <= total (p_log p) + match fst (m p) with Ok _ => p_off (snd (m p)) | _ => T end.
Proof.
  intros A sz n k Hk HF p Hp Hn m. pose proof (HH p Hp) as Ht. specialize (HF p). fold m in HF.
  assert (H : I (snd (m p)) /\ p_off p <= p_off (snd (m p)) /\ total (p_log (snd (m p))) <= total (p_log p) + n).
  { unfold m, bind, m_alloc. destruct (isize_max pl <? n); cbn [fst snd].
    - split; [exact Hp|]. lia.
    - destruct (Hk tt _ (HL p (n :: p_log p) Hp)) as (H1 & H2 & H3). cbn [p_off p_log] in *.
      destruct (k tt _) as [o q]. cbn [fst snd] in *. split; [exact H1|]. split; [exact H2|]. rewrite H3. cbn [total]. lia. }
  destruct H as (H1 & H2 & H3). split; [exact H1|]. split; [exact H2|].
  destruct (m p) as [[x|e| |] p']; cbn [fst snd] in *; try lia. exact (proj2 (HF x p' eq_refl)).
Qed.

Lemma thrifty_slow : forall n, Thrifty (parse_bytes_slow pl PB n).
Proof.
  intros n p Hp. unfold parse_bytes_slow, safe_capacity_bound. change (1 =? 0) with false. cbv iota.
  unfold m_hint, ret at 1, lift. unfold bind at 1 2. cbv beta iota.
  match goal with |- context [bind (m_alloc pl ?n) ?k p] => pose proof (Thrifty_alloc _ (fun d => len d) n k) as H end.
  cbv zeta in H. apply H; clear H; [|intros q d q' E|exact Hp|].
  - intros _. apply Quiet_loop. intros [k d]. destruct (k =? 0); [apply Quiet_ret|]. apply Quiet_chunk. intros c. cbv zeta.
    apply After_advance; [apply trunc_le|]. intros. apply Quiet_ret.
  - apply bind_ok in E. destruct E as (u & q0 & E1 & E). destruct (alloc_fed _ _ _ _ _ E1) as [O1 L1].
    apply (Read_from S (N * list N) (list N) (fun s => N.max (n - fst s) (len (snd s))) (fun d => N.max n (len d))) in E.
    + destruct E as [H L]. unfold fed. rewrite L, L1. cbn [total]. lia.
    + cbn [fst snd]. rewrite N.sub_diag. reflexivity.
    + clear. intros [k x] p r p' E. destruct (N.eqb_spec k 0) as [->|Hk]; cbn [fst snd].
      * un E. split; [|reflexivity]. rewrite N.sub_0_r. lia.
      * un E. destruct (chunk_read _ _ _ _ E0) as [O1 L1]. destruct (advance_read _ _ _ _ _ E1) as [O2 L2].
        cbn [fst snd]. rewrite len_app. split; [lia|congruence].
  - rewrite N.div_1_r. lia.
Qed.

Lemma thrifty_bytes : forall n, Thrifty (parse_bytes pl PB n).
Proof.
  intros n. unfold parse_bytes. apply Thrifty_bind; [apply Quiet_Thrifty, quiet_direct|]. intros [[a d]|].
  { apply Quiet_Thrifty, Quiet_ret. }
  intros p Hp.
  match goal with |- context [bind (m_hint PB) ?k p] => change (bind (m_hint PB) k p) with (k (pb_hint PB (p_buf p)) p) end.
  cbv beta iota zeta. destruct (pb_hint PB (p_buf p)) as [h|] eqn:Eh.
  - destruct (N.leb_spec n h) as [Hn|Hn].
    + match goal with |- context [bind (m_alloc pl ?n) ?k p] => pose proof (Thrifty_alloc _ (items 1) n k) as H end.
      cbv zeta in H. apply H; clear H; [|intros q c q' E|exact Hp|now rewrite Eh].
      * intros _. apply Quiet_bind; [apply quiet_to_slice|]. intros; apply Quiet_ret.
      * un E. destruct (alloc_fed _ _ _ _ _ E0) as [O2 L2]. destruct (to_slice_read _ _ _ _ _ E1) as [O3 L3].
        unfold fed, items. cbn [cow_list]. rewrite L3, L2. cbn [total]. lia.
    + apply (Thrifty_bind _ _ _ _ (thrifty_slow n)); [|exact Hp]. intros; apply Quiet_Thrifty, Quiet_ret.
  - apply (Thrifty_bind _ _ _ _ (thrifty_slow n)); [|exact Hp]. intros; apply Quiet_Thrifty, Quiet_ret.
Qed.

Lemma quiet_u8 : Quiet (parse_u8 PB). Proof. apply Quiet_bind; [apply quiet_array|intros; apply Quiet_ret]. Qed.
Lemma quiet_u16 : Quiet (parse_u16 pl PB).
Proof. apply Quiet_bind; [apply quiet_array|intros]. apply Quiet_bind; [apply Quiet_cfg|intros; apply Quiet_ret]. Qed.
Lemma quiet_u32 : Quiet (parse_u32 pl PB).
Proof. apply Quiet_bind; [apply quiet_array|intros]. apply Quiet_bind; [apply Quiet_cfg|intros; apply Quiet_ret]. Qed.
Lemma quiet_u64 : Quiet (parse_u64 pl PB).
Proof. apply Quiet_bind; [apply quiet_array|intros]. apply Quiet_bind; [apply Quiet_cfg|intros; apply Quiet_ret]. Qed.

Lemma thrifty_slice : forall A (E : elem A) n, 0 < el_size E -> Quiet (el_parse E PB) ->
  (forall p x p', el_parse E PB p = (Ok x, p') -> p_off p + el_size E <= p_off p' /\ p_log p' = p_log p) ->
  Thrifty (parse_slice pl PB E n).
Proof.
  intros A E n Hs Hq He. unfold parse_slice. apply Thrifty_bind.
  - apply Quiet_Thrifty. unfold parse_slice_direct. apply Quiet_bind; [apply Quiet_cfg|]. intros c.
    destruct (negb _); [apply Quiet_ret|]. destruct (checked_mul _ _ _); [|apply Quiet_fail].
    apply Quiet_bind; [apply quiet_direct|]. intros [[a d]|]; [|apply Quiet_ret]. destruct (_ || _); apply Quiet_ret.
  - intros [[a l]|]; [apply Quiet_Thrifty, Quiet_ret|]. apply Thrifty_bind; [|intros; apply Quiet_Thrifty, Quiet_ret].
    intros p Hp. unfold parse_repeated, safe_capacity_bound.
    destruct (N.eqb_spec (el_size E) 0) as [?|_]; [lia|]. unfold m_hint, ret at 1, lift.
    unfold bind at 1 2. cbv beta iota.
    match goal with |- context [bind (m_alloc pl ?n) ?k p] => pose proof (Thrifty_alloc _ (fun l => el_size E * len l) n k) as H end.
    cbv zeta in H. apply H; clear H; [|intros q d q' R|exact Hp|].
    + intros _. apply Quiet_loop. intros [k v]. destruct (k =? 0); [apply Quiet_ret|].
      apply Quiet_bind; [exact Hq|]. intros; apply Quiet_ret.
    + un R. destruct (alloc_fed _ _ _ _ _ E0) as [O1 L1].
      set (b := unwrap_or _ _ / _) in *. clearbody b.
      apply (Read_loop S (N * list A) (list A) (fun s => N.max (el_size E * (n - fst s)) (el_size E * len (snd s)))
        (fun d => N.max (el_size E * n) (el_size E * len d))) in R.
      * cbn [fst snd] in R. rewrite N.sub_diag in R. change (len (@nil A)) with 0 in R.
        destruct R as [H L]. unfold fed. rewrite L, L1. cbn [total].
        assert (N.min n b * el_size E <= el_size E * n) by nia. lia.
      * clear - He. intros [k x] p r p' R. destruct (N.eqb_spec k 0) as [->|Hk]; cbn [fst snd].
        -- un R. split; [|reflexivity]. rewrite N.sub_0_r. lia.
        -- un R. destruct (He _ _ _ E0) as [O1 L1]. cbn [fst snd]. rewrite len_app. change (len [a]) with 1.
           split; [|exact L1].
           assert (el_size E * (n - (k - 1)) <= el_size E * (n - k) + el_size E) by nia.
           assert (el_size E * (len x + 1) = el_size E * len x + el_size E) by nia. lia.
    + set (h := unwrap_or _ _). pose proof (N.mul_div_le h (el_size E) ltac:(lia)) as Hd.
      assert (N.min n (h / el_size E) * el_size E <= el_size E * (h / el_size E)) by nia. lia.
Qed.

Lemma thrifty_words : forall n, Thrifty (parse_slice pl PB (elem_u64 pl) n).
Proof. intros n. apply thrifty_slice; [reflexivity|apply quiet_u64|apply u64_read]. Qed.
Lemma thrifty_ns : forall n, Thrifty (parse_slice pl PB (elem_ns pl) n).
Proof.
  intros n. apply thrifty_slice; [reflexivity| |].
  - cbn. unfold parse_ns_entry. repeat (apply Quiet_bind; [apply quiet_u64|intros]). apply Quiet_ret.
  - intros p x p' E. cbn [el_parse elem_ns el_size] in *. unfold parse_ns_entry in E. un E.
    apply u64_read in E0, E1. split; [lia|destruct E0, E1; congruence].
Qed.
Lemma thrifty_branches : forall n, Thrifty (parse_slice pl PB (elem_branch pl) n).
Proof.
  intros n. apply thrifty_slice; [reflexivity| |].
  - cbn. unfold parse_branch_entry. repeat (apply Quiet_bind; [apply quiet_u64|intros]). apply Quiet_ret.
  - intros p x p' E. cbn [el_parse elem_branch el_size] in *. unfold parse_branch_entry in E. un E.
    apply u64_read in E0, E1, E2. split; [lia|destruct E0, E1, E2; congruence].
Qed.

(** Step by step. *)
Ltac quiet := first
  [apply Quiet_ret|apply Quiet_lift|apply Quiet_fail|apply Quiet_panic|apply Quiet_cfg|apply Quiet_off
  |apply quiet_u8|apply quiet_u16|apply quiet_u32|apply quiet_u64|apply quiet_array|apply quiet_ignored|apply quiet_rest].
Ltac thrifty := cbv zeta; intros; first
  [apply Quiet_Thrifty; quiet
  |apply thrifty_bytes|apply thrifty_words|apply thrifty_ns|apply thrifty_branches
  |assumption
  |apply Thrifty_bind; thrifty
  |apply Thrifty_if; thrifty
  |match goal with
   | |- Thrifty (if ?b then _ else _) => destruct b; thrifty
   | |- Thrifty (match ?x with _ => _ end) => destruct x; thrifty
   | H : Thrifty ?m |- Thrifty ?m => exact H
   end].

Lemma thrifty_padded : forall A k (m : M S A), Thrifty m -> Thrifty (parse_padded PB k m).
Proof. intros A k m H. unfold parse_padded. thrifty. Qed.
Lemma thrifty_value : Thrifty (parse_read_value pl PB). Proof. unfold parse_read_value. thrifty. Qed.
Lemma thrifty_group : Thrifty (parse_read_group pl PB). Proof. unfold parse_read_group. thrifty. Qed.
Lemma quiet_sample_id : Quiet (parse_sample_id pl PB).
Proof.
  unfold parse_sample_id. apply Quiet_bind; [quiet|]. intros c. cbv zeta. destruct (negb _); [quiet|].
  repeat (apply Quiet_bind; [apply Quiet_if; first [quiet|repeat (apply Quiet_bind; [quiet|intros]); quiet]|intros]). quiet.
Qed.
Lemma quiet_header : Quiet (parse_header pl PB).
Proof. unfold parse_header. repeat (apply Quiet_bind; [quiet|intros]). quiet. Qed.

Lemma thrifty_sample : Thrifty (parse_sample pl PB).
Proof.
  pose proof thrifty_value. pose proof thrifty_group.
  assert (Thrifty (parse_sample_read pl PB)) by (unfold parse_sample_read; thrifty).
  assert (Thrifty (parse_callchain pl PB)) by (unfold parse_callchain; thrifty).
  assert (Thrifty (parse_raw pl PB)) by (apply thrifty_padded; thrifty).
  assert (forall hw, Thrifty (parse_lbr pl PB hw)) by (intros; unfold parse_lbr; thrifty).
  assert (forall n, Thrifty (parse_registers pl PB n)) by (intros; unfold parse_registers; thrifty).
  assert (Thrifty (parse_stack_user pl PB)) by (unfold parse_stack_user; thrifty).
  assert (Thrifty (parse_sample_aux pl PB)) by (unfold parse_sample_aux; thrifty).
  unfold parse_sample. apply Thrifty_bind; [thrifty|]. intros c. cbv zeta.
  repeat (apply Thrifty_bind; [apply Thrifty_if; first [apply Quiet_Thrifty; quiet|assumption|apply H3|apply H4|thrifty|auto]|intros]).
  thrifty.
Qed.

Lemma thrifty_body : forall t, Thrifty (parse_body pl PB t).
Proof.
  intros t. pose proof thrifty_sample. pose proof thrifty_value.
  assert (Thrifty (parse_rest_trim_nul PB)) by (unfold parse_rest_trim_nul; thrifty).
  assert (Thrifty (parse_mmap_detail pl PB)) by (unfold parse_mmap_detail; thrifty).
  unfold parse_body.
  repeat match goal with |- Thrifty (if ?b then _ else _) => destruct b end; (apply Thrifty_bind; [|intros; apply Quiet_Thrifty, Quiet_ret]);
    try assumption;
    first [unfold parse_mmap; thrifty|unfold parse_lost; thrifty|unfold parse_comm; thrifty|unfold parse_exit; thrifty
          |unfold parse_throttle; thrifty|unfold parse_read; thrifty|unfold parse_mmap2; thrifty|unfold parse_aux; thrifty
          |unfold parse_itrace_start; thrifty|unfold parse_lost_samples; thrifty|unfold parse_switch_cpu_wide; thrifty
          |unfold parse_namespaces; thrifty|unfold parse_ksymbol; thrifty|unfold parse_bpf_event; thrifty
          |unfold parse_cgroup; thrifty|unfold parse_text_poke; thrifty|unfold parse_aux_output_hw_id; thrifty|thrifty].
Qed.
End Spend.

(** A source in the sense of the trait. *)
Section Source.
Context {S : Type} (PB : parsebuf S) (mo : mode) (fin : perror) (cap : N) (mem : memory).
Context (rep : S -> list N -> N -> Prop) (HC : contract PB mo fin cap mem rep) (L : N).

(** [L] is where it ends. *)
Definition until (p : parser S) : Prop := exists l a, rep (p_buf p) l a /\ p_off p + len l = L.

Lemma until_chunk : forall p, until p -> until (snd (m_chunk PB p)).
Proof.
  intros p (l & a & Hr & Ho). unfold m_chunk. destruct l as [|b l].
  - destruct (ct_empty HC _ _ Hr) as (s & -> & Hs). exists [], a. auto.
  - destruct (ct_chunk HC _ _ _ Hr) as (c & s & -> & Hs & _); [discriminate|]. exists (b :: l), a. auto.
Qed.
Lemma until_advance : forall p c p1 n, until p -> m_chunk PB p = (Ok c, p1) -> n <= len (chunk_data c) ->
  until (snd (m_advance PB n p1)).
Proof.
  intros p c p1 n (l & a & Hr & Ho) E Hn. unfold m_chunk in E. destruct l as [|b l].
  - destruct (ct_empty HC _ _ Hr) as (s & E1 & Hs). rewrite E1 in E. discriminate.
  - destruct (ct_chunk HC _ _ _ Hr) as (c1 & s & E1 & Hs & _ & (r & Hl) & _ & Ha); [discriminate|].
    rewrite E1 in E. injection E as <- <-. unfold m_advance. cbn [p_buf].
    destruct (Ha n Hn) as (s2 & -> & Hs2). exists (drop n (b :: l)), (a + n). split; [exact Hs2|].
    cbn [snd p_off]. rewrite Hl, len_app in Ho. rewrite Hl, len_drop, len_app. lia.
Qed.
Lemma until_hint : forall p, until p -> p_off p + unwrap_or (pb_hint PB (p_buf p)) 16384 <= L + cap.
Proof.
  intros p (l & a & Hr & Ho). destruct (pb_hint PB (p_buf p)) as [h|] eqn:E; cbn [unwrap_or].
  - pose proof (ct_hint HC _ _ _ _ Hr E). lia.
  - pose proof (ct_nohint HC _ _ _ Hr E). lia.
Qed.
Lemma until_log : forall p l, until p -> until (mkParser (p_cfg p) (p_buf p) (p_off p) l).
Proof. intros p l H. exact H. Qed.
End Source.

Lemma body_spends : forall pl S (PB : parsebuf S) mo fin cap mem rep t p l a,
  contract PB mo fin cap mem rep -> rep (p_buf p) l a ->
  let '(o, p') := parse_body pl PB t p in total (p_log p') <= total (p_log p) + len l + cap.
Proof.
  intros pl S PB mo fin cap mem rep t p l a HC Hr.
  destruct (thrifty_body pl PB (until rep (p_off p + len l)) (p_off p + len l + cap)
    (until_chunk PB mo fin cap mem rep HC _) (until_advance PB mo fin cap mem rep HC _)
    (until_hint PB mo fin cap mem rep HC _) (until_log rep _) t p) as ((l' & a' & _ & Ho) & H1 & H2).
  { exists l, a. auto. }
  destruct (parse_body pl PB t p) as [[x|e| |] p']; cbn [fst snd] in *; lia.
Qed.

(** A slice says exactly what is left. *)
Lemma slice_body_spends : forall pl t p,
  let '(o, p') := parse_body pl slice_buf t p in total (p_log p') <= total (p_log p) + len (sl_data (p_buf p)).
Proof.
  intros pl t p. set (mem := fun _ : N => 0).
  set (rep := fun s l (_ : N) => sl_data s = l).
  set (L := p_off p + len (sl_data (p_buf p))).
  destruct (thrifty_body pl slice_buf (until rep L) L) with (t := t) (p := p) as ((l' & a' & _ & Ho) & H1 & H2).
  - intros q (l & a & Hr & Hq). unfold m_chunk. cbn [pb_chunk slice_buf]. unfold slice_chunk.
    destruct (sl_data (p_buf q)) eqn:E; cbn [snd]; exists l, a; auto.
  - intros q c q1 n (l & a & Hr & Hq) E Hn. unfold m_chunk in E. cbn [pb_chunk slice_buf] in E. unfold slice_chunk in E.
    unfold rep in Hr. rewrite Hr in E. destruct l as [|b l]; [discriminate|]. injection E as <- <-. cbn [chunk_data] in Hn.
    unfold m_advance. cbn [p_buf pb_advance slice_buf]. unfold slice_advance. rewrite Hr.
    destruct (N.ltb_spec (len (b :: l)) n) as [?|_]; [lia|]. exists (drop n (b :: l)), a. cbn [snd p_buf p_off].
    split; [unfold rep; reflexivity|]. rewrite len_drop. lia.
  - intros q (l & a & Hr & Hq). unfold rep in Hr. cbn [pb_hint slice_buf unwrap_or]. rewrite Hr. lia.
  - intros q l H. exact H.
  - exists (sl_data (p_buf p)), 0. split; reflexivity.
  - unfold L in *. destruct (parse_body pl slice_buf t p) as [[x|e| |] p']; cbn [fst snd] in *; lia.
Qed.
