(** Parsing with a user's implementation of [Endian] is parsing with one of the crate, maybe on another host. *)
From Coq Require Import NArith List Bool Lia.
From Verif Require Import Base BaseFacts Types Platform Config Buf Parser Records Sample Record Attr Endian.
Import ListNotations.
Open Scope N_scope.

(** The same host but for its byte order. *)
Definition host (h : order) (pl : platform) : platform := mkPlatform h (pl_bits pl) (pl_align pl).

Definition recfg (e : endian) (c : config) : config := mkConfig (c_flags c) (c_regs_user c) (c_regs_intr c) e.
Definition recast (e : endian) {S : Type} (p : parser S) : parser S :=
  mkParser (recfg e (p_cfg p)) (p_buf p) (p_off p) (p_log p).

(** What holds of every value returned. *)
Definition Post {S A : Type} (P : A -> Prop) (m : M S A) : Prop := forall p x q, m p = (Ok x, q) -> P x.

Section Arrays.
Context {S : Type}.

Lemma post_ret : forall A (P : A -> Prop) a, P a -> Post (S := S) P (ret a).
Proof. intros A P a H p x q E. injection E as <- <-. exact H. Qed.
Lemma post_bind : forall A B (P : A -> Prop) (Q : B -> Prop) (m : M S A) k,
  Post P m -> (forall x, P x -> Post Q (k x)) -> Post Q (bind m k).
Proof.
  intros A B P Q m k Hm Hk p x q E. unfold bind in E. destruct (m p) as [[y|y| |] p1] eqn:E1; try discriminate.
  exact (Hk y (Hm _ _ _ E1) _ _ _ E).
Qed.
Lemma post_any : forall A (m : M S A), Post (fun _ => True) m.
Proof. intros A m p x q _. exact Logic.I. Qed.

Lemma post_loop : forall St B (Inv : St -> Prop) (P : B -> Prop) (body : St -> M S (St + B)),
  (forall x, Inv x -> Post (fun r => match r with inl y => Inv y | inr b => P b end) (body x)) ->
  forall x, Inv x -> Post P (loop body x).
Proof.
  intros St B Inv P body H.
  assert (Hp : forall n x, Inv x -> Post (fun r => match r with inl y => Inv y | inr b => P b end) (loop_pos body n x)).
  { intros n. induction n as [n IH|n IH|]; intros x Hx; cbn [loop_pos].
    - eapply post_bind; [now apply H|]. intros [y|b] Hy; [|now apply post_ret].
      eapply post_bind; [now apply IH|]. intros [z|b] Hz; [now apply IH|now apply post_ret].
    - eapply post_bind; [now apply IH|]. intros [y|b] Hy; [now apply IH|now apply post_ret].
    - now apply H. }
  intros x Hx. unfold loop. generalize loop_fuel. intros n.
  eapply post_bind; [now apply Hp|]. intros [y|b] Hy; [|now apply post_ret].
  intros p z q E. discriminate.
Qed.

Lemma array_post : forall (PB : parsebuf S) n, Post (fun l => len l = n) (parse_array PB n).
Proof.
  intros PB n. unfold parse_array. eapply post_bind; [apply post_any|]. intros c _.
  destruct (N.ltb_spec (len (chunk_data c)) n) as [Hn|Hn].
  - unfold parse_to_slice. apply (post_loop _ _ (fun x => len (snd x) + fst x = n)).
    + intros [m d] Hx. cbn [fst snd] in Hx. destruct (N.eqb_spec m 0) as [->|Hm]; [apply post_ret; lia|].
      eapply post_bind; [apply post_any|]. intros c1 _. cbv zeta.
      eapply post_bind; [apply post_any|]. intros _ _. apply post_ret. cbn [fst snd].
      rewrite len_app, len_take. lia.
    + cbn [fst snd]. rewrite len_nil. lia.
  - eapply post_bind; [apply post_any|]. intros _ _. apply post_ret. rewrite len_take. lia.
Qed.
End Arrays.

Section Rel.
Context (e : endian).

(** The run with the crate's type [e], and the one with the user's, which keeps the configuration. *)
Definition RelV {S A A' : Type} (f : A' -> A) (m : M S A) (m' : M S A') : Prop :=
  forall p, m (recast e p) = (out_map f (fst (m' p)), recast e (snd (m' p))) /\ p_cfg (snd (m' p)) = p_cfg p.
Definition Rel {S A : Type} (m m' : M S A) : Prop :=
  forall p, m (recast e p) = (fst (m' p), recast e (snd (m' p))) /\ p_cfg (snd (m' p)) = p_cfg p.

Section One.
Context {S : Type}.

Lemma rel_ret : forall A (a : A), Rel (S := S) (ret a) (ret a).
Proof. intros A a p. split; reflexivity. Qed.
Lemma rel_fail : forall A x, Rel (S := S) (A := A) (fail x) (fail x).
Proof. intros A x p. split; reflexivity. Qed.
Lemma rel_panic : forall A, Rel (S := S) (A := A) panic panic.
Proof. intros A p. split; reflexivity. Qed.
Lemma rel_lift : forall A (o : out A), Rel (S := S) (lift o) (lift o).
Proof. intros A o p. split; reflexivity. Qed.
Lemma rel_off : Rel (S := S) get_off get_off.
Proof. intros p. split; reflexivity. Qed.

Lemma rel_bind : forall A B (m m' : M S A) (k k' : A -> M S B),
  Rel m m' -> (forall x, Rel (k x) (k' x)) -> Rel (bind m k) (bind m' k').
Proof.
  intros A B m m' k k' Hm Hk p. unfold bind. destruct (Hm p) as [-> Hc].
  destruct (m' p) as [[x|x| |] q]; cbn [fst snd] in *; auto.
  destruct (Hk x q) as [-> H]. split; [reflexivity|congruence].
Qed.

Lemma rel_bind_post : forall A B (P : A -> Prop) (m m' : M S A) (k k' : A -> M S B),
  Rel m m' -> Post P m' -> (forall x, P x -> Rel (k x) (k' x)) -> Rel (bind m k) (bind m' k').
Proof.
  intros A B P m m' k k' Hm HP Hk p. unfold bind. destruct (Hm p) as [-> Hc]. pose proof (HP p) as Hx.
  destruct (m' p) as [[x|x| |] q]; cbn [fst snd] in *; auto.
  destruct (Hk x (Hx x q eq_refl) q) as [-> H]. split; [reflexivity|congruence].
Qed.

Lemma relv_bind : forall A A' B (f : A' -> A) (m : M S A) (m' : M S A') (k : A -> M S B) k',
  RelV f m m' -> (forall x, Rel (k (f x)) (k' x)) -> Rel (bind m k) (bind m' k').
Proof.
  intros A A' B f m m' k k' Hm Hk p. unfold bind. destruct (Hm p) as [-> Hc].
  destruct (m' p) as [[x|x| |] q]; cbn [fst snd out_map] in *; auto.
  destruct (Hk x q) as [-> H]. split; [reflexivity|congruence].
Qed.

Lemma relv_bind2 : forall A A' B B' (f : A' -> A) (g : B' -> B) (m : M S A) (m' : M S A') (k : A -> M S B) k',
  RelV f m m' -> (forall x, RelV g (k (f x)) (k' x)) -> RelV g (bind m k) (bind m' k').
Proof.
  intros A A' B B' f g m m' k k' Hm Hk p. unfold bind. destruct (Hm p) as [-> Hc].
  destruct (m' p) as [[x|x| |] q]; cbn [fst snd out_map] in *; auto.
  destruct (Hk x q) as [-> H]. split; [reflexivity|congruence].
Qed.

Lemma relv_bind1 : forall A B B' (g : B' -> B) (m m' : M S A) (k : A -> M S B) k',
  Rel m m' -> (forall x, RelV g (k x) (k' x)) -> RelV g (bind m k) (bind m' k').
Proof.
  intros A B B' g m m' k k' Hm Hk p. unfold bind. destruct (Hm p) as [-> Hc].
  destruct (m' p) as [[x|x| |] q]; cbn [fst snd out_map] in *; auto.
  destruct (Hk x q) as [-> H]. split; [reflexivity|congruence].
Qed.

Lemma relv_ret : forall A A' (f : A' -> A) a, RelV (S := S) f (ret (f a)) (ret a).
Proof. intros A A' f a p. split; reflexivity. Qed.
Lemma relv_fail : forall A A' (f : A' -> A) x, RelV (S := S) f (fail x) (fail x).
Proof. intros A A' f x p. split; reflexivity. Qed.

Lemma rel_cfg : forall B (k k' : config -> M S B),
  (forall c, Rel (k (recfg e c)) (k' c)) -> Rel (bind get_cfg k) (bind get_cfg k').
Proof. intros B k k' H p. exact (H (p_cfg p) p). Qed.

Lemma rel_if : forall B (b : bool) (x x' y y' : M S B), Rel x x' -> Rel y y' ->
  Rel (if b then x else y) (if b then x' else y').
Proof. intros B [] x x' y y' Hx Hy; assumption. Qed.

Lemma rel_parse_if : forall A b (m m' : M S A), Rel m m' -> Rel (parse_if b m) (parse_if b m').
Proof. intros A b m m' H. apply rel_if; [|apply rel_ret]. apply rel_bind; [exact H|]. intros x. apply rel_ret. Qed.

Lemma rel_loop_pos : forall St B (body body' : St -> M S (St + B)),
  (forall x, Rel (body x) (body' x)) -> forall n x, Rel (loop_pos body n x) (loop_pos body' n x).
Proof.
  intros St B body body' H n. induction n as [n IH|n IH|]; intros x; cbn [loop_pos].
  - apply rel_bind; [apply H|]. intros [y|b]; [|apply rel_ret].
    apply rel_bind; [apply IH|]. intros [z|b]; [apply IH|apply rel_ret].
  - apply rel_bind; [apply IH|]. intros [y|b]; [apply IH|apply rel_ret].
  - apply H.
Qed.

Lemma rel_loop : forall St B (body body' : St -> M S (St + B)),
  (forall x, Rel (body x) (body' x)) -> forall x, Rel (loop body x) (loop body' x).
Proof.
  intros St B body body' H x. unfold loop. generalize loop_fuel. intros n.
  apply rel_bind; [now apply rel_loop_pos|]. intros [y|b]; [apply rel_lift|apply rel_ret].
Qed.

Lemma rel_sub : forall S2 A (m m' : M S2 A) q, Rel m m' -> Rel (S := S) (sub m (recast e q)) (sub m' q).
Proof. intros S2 A m m' q H p. unfold sub. destruct (H q) as [-> _]. destruct (m' q). split; reflexivity. Qed.

Lemma relv_sub : forall S2 A A' (f : A' -> A) (m : M S2 A) m' q,
  RelV f m m' -> RelV (S := S) f (sub m (recast e q)) (sub m' q).
Proof. intros S2 A A' f m m' q H p. unfold sub. destruct (H q) as [-> _]. destruct (m' q). split; reflexivity. Qed.

Context (PB : parsebuf S).

Lemma rel_chunk : Rel (m_chunk PB) (m_chunk PB).
Proof. intros p. unfold m_chunk, recast. cbn. destruct (pb_chunk PB (p_buf p)). split; reflexivity. Qed.
Lemma rel_advance : forall n, Rel (m_advance PB n) (m_advance PB n).
Proof. intros n p. unfold m_advance, recast. cbn. destruct (pb_advance PB (p_buf p) n). split; reflexivity. Qed.
Lemma rel_hint : Rel (m_hint PB) (m_hint PB).
Proof. intros p. split; reflexivity. Qed.
Lemma rel_alloc : forall h pl n, Rel (S := S) (m_alloc (host h pl) n) (m_alloc pl n).
Proof.
  intros h pl n p. unfold m_alloc. change (isize_max (host h pl)) with (isize_max pl). destruct (isize_max pl <? n); split; reflexivity.
Qed.
End One.

Ltac step := intros; first
  [ apply rel_ret | apply rel_fail | apply rel_panic | apply rel_lift | apply rel_off
  | apply rel_chunk | apply rel_advance | apply rel_hint | apply rel_alloc
  | apply rel_cfg | apply rel_parse_if | apply rel_if | apply rel_loop | apply rel_bind
  | match goal with |- Rel (match ?x with _ => _ end) _ => destruct x end ].
Ltac steps := repeat step.

Section Blind.
Context (h : order) (pl : platform) {S : Type} (PB : parsebuf S).

Lemma rel_to_slice : forall n, Rel (parse_to_slice PB n) (parse_to_slice PB n).
Proof. intros n. unfold parse_to_slice. apply rel_loop. intros [m d]. steps. Qed.
Lemma rel_array : forall n, Rel (parse_array PB n) (parse_array PB n).
Proof. intros n. unfold parse_array. apply rel_bind; [apply rel_chunk|]. intros c. apply rel_if; [apply rel_to_slice|steps]. Qed.
Lemma rel_u8 : Rel (parse_u8 PB) (parse_u8 PB).
Proof. unfold parse_u8. apply rel_bind; [apply rel_array|]. steps. Qed.
Lemma rel_ignored : forall n, Rel (parse_bytes_ignored PB n) (parse_bytes_ignored PB n).
Proof. intros n. unfold parse_bytes_ignored. steps. Qed.
Lemma rel_direct : forall n, Rel (parse_bytes_direct PB n) (parse_bytes_direct PB n).
Proof. intros n. unfold parse_bytes_direct. steps. Qed.
Lemma rel_bound : forall n, Rel (safe_capacity_bound (host h pl) PB n) (safe_capacity_bound pl PB n).
Proof.
  intros n. unfold safe_capacity_bound. change (usize_max (host h pl)) with (usize_max pl). steps.
Qed.
Lemma rel_slow : forall n, Rel (parse_bytes_slow (host h pl) PB n) (parse_bytes_slow pl PB n).
Proof.
  intros n. unfold parse_bytes_slow. apply rel_bind; [apply rel_bound|]. intros b.
  apply rel_bind; [apply rel_alloc|]. intros _. apply rel_loop. intros [m d]. steps.
Qed.
Lemma rel_bytes : forall n, Rel (parse_bytes (host h pl) PB n) (parse_bytes pl PB n).
Proof.
  intros n. unfold parse_bytes. apply rel_bind; [apply rel_direct|]. intros [[a d]|]; [apply rel_ret|].
  apply rel_bind; [apply rel_hint|]. intros x. cbv zeta. apply rel_if.
  - apply rel_bind; [apply rel_alloc|]. intros _. apply rel_bind; [apply rel_to_slice|]. steps.
  - apply rel_bind; [apply rel_slow|]. steps.
Qed.
Lemma rel_rest : Rel (parse_rest PB) (parse_rest PB).
Proof.
  unfold parse_rest. apply rel_bind; [apply rel_chunk|]. intros c. cbv zeta.
  apply rel_bind; [apply rel_advance|]. intros _. apply rel_loop. intros b p. destruct (rel_chunk PB p) as [-> Hc].
  destruct (m_chunk PB p) as [[x|x| |] q]; cbn [fst snd] in *; auto.
  - assert (H : Rel (bind (m_advance PB (len (chunk_data x))) (fun _ => ret (inl (Owned (cow_list b ++ chunk_data x)) : cow N + cow N)))
                  (bind (m_advance PB (len (chunk_data x))) (fun _ => ret (inl (Owned (cow_list b ++ chunk_data x))))))
      by (apply rel_bind; [apply rel_advance|steps]).
    destruct (H q) as [-> H2]. split; [reflexivity|congruence].
  - destruct (is_eof x); split; auto.
Qed.
Lemma rel_trim : Rel (parse_rest_trim_nul PB) (parse_rest_trim_nul PB).
Proof. unfold parse_rest_trim_nul. apply rel_bind; [apply rel_rest|]. steps. Qed.
Lemma rel_padded : forall A n (m m' : M S A), Rel m m' -> Rel (parse_padded PB n m) (parse_padded PB n m').
Proof.
  intros A n m m' H. unfold parse_padded. apply rel_if; [apply rel_panic|].
  apply rel_bind; [apply rel_off|]. intros a. apply rel_bind; [exact H|]. intros v.
  apply rel_bind; [apply rel_off|]. intros b. cbv zeta.
  apply rel_bind; [apply rel_if; [apply rel_ret|apply rel_ignored]|]. steps.
Qed.
Lemma relv_split : forall n, RelV (recast e) (split_at PB n) (split_at PB n).
Proof.
  intros n. unfold split_at.
  apply (relv_bind1 _ _ _ _ (cursor_new PB n) (cursor_new PB n)).
  - unfold cursor_new. apply rel_bind; [|steps]. apply rel_loop. intros [m cs]. steps.
  - intros c p. split; reflexivity.
Qed.
End Blind.

(** What makes [E] on [pl] as good as [e] on the host of order [h]: it converts the same, and it takes arrays as
    they are where [e] would and the orders of the two hosts are the same. *)
Definition converts (E : byteorder) (pl : platform) (h : order) : Prop :=
  forall l, (len l = 2 -> bo_16 E pl l = convert (host h pl) e l) /\
            (len l = 4 -> bo_32 E pl l = convert (host h pl) e l) /\
            (len l = 8 -> bo_64 E pl l = convert (host h pl) e l).
Definition reports (E : byteorder) (pl : platform) (h : order) : Prop :=
  bo_native E pl = is_native (host h pl) e /\ (bo_native E pl = true -> h = pl_host pl).

Section Words.
Context (h : order) (pl : platform) (E : byteorder) (HE : converts E pl h) (HR : reports E pl h) {S : Type} (PB : parsebuf S).

Lemma rel_u16 : Rel (parse_u16 (host h pl) PB) (parse_u16_by E pl PB).
Proof.
  unfold parse_u16, parse_u16_by. eapply rel_bind_post; [apply rel_array|apply array_post|]. intros a Ha p.
  unfold bind, get_cfg, ret. cbn [recast p_cfg recfg c_endian fst snd]. split; [|reflexivity]. now rewrite (proj1 (HE a) Ha).
Qed.
Lemma rel_u32 : Rel (parse_u32 (host h pl) PB) (parse_u32_by E pl PB).
Proof.
  unfold parse_u32, parse_u32_by. eapply rel_bind_post; [apply rel_array|apply array_post|]. intros a Ha p.
  unfold bind, get_cfg, ret. cbn [recast p_cfg recfg c_endian fst snd]. split; [|reflexivity]. now rewrite (proj1 (proj2 (HE a)) Ha).
Qed.
Lemma rel_u64 : Rel (parse_u64 (host h pl) PB) (parse_u64_by E pl PB).
Proof.
  unfold parse_u64, parse_u64_by. eapply rel_bind_post; [apply rel_array|apply array_post|]. intros a Ha p.
  unfold bind, get_cfg, ret. cbn [recast p_cfg recfg c_endian fst snd]. split; [|reflexivity]. now rewrite (proj2 (proj2 (HE a)) Ha).
Qed.

Lemma rel_slice : forall A (L L' : elem A) n, el_size L = el_size L' ->
  Rel (el_parse L PB) (el_parse L' PB) -> (h = pl_host pl -> el_native L = el_native L') ->
  Rel (parse_slice (host h pl) PB L n) (parse_slice_by E pl PB L' n).
Proof.
  intros A L L' n Hs Hp Hn. unfold parse_slice, parse_slice_by. apply rel_bind.
  - intros p. unfold parse_slice_direct, parse_slice_direct_by.
    unfold bind at 1, get_cfg. cbn [recast p_cfg recfg c_endian].
    destruct HR as [Hi Hh]. rewrite <- Hi. destruct (bo_native E pl); [|split; reflexivity].
    cbn [negb]. rewrite Hs, Hn by now apply Hh.
    change (checked_mul (host h pl)) with (checked_mul pl). change (word_align (host h pl)) with (word_align pl).
    destruct (checked_mul pl n (el_size L')) as [b|]; [|split; reflexivity].
    apply (rel_bind _ _ (parse_bytes_direct PB b) (parse_bytes_direct PB b)); [apply rel_direct|].
    intros [[a d]|]; [|apply rel_ret]. apply rel_if; apply rel_ret.
  - intros [[a l]|]; [apply rel_ret|]. apply rel_bind; [|intros l; apply rel_ret].
    unfold parse_repeated. rewrite Hs. apply rel_bind; [apply rel_bound|]. intros b.
    apply rel_bind; [apply rel_alloc|]. intros _. apply rel_loop. intros [m v].
    apply rel_if; [apply rel_ret|]. apply rel_bind; [exact Hp|]. intros x. apply rel_ret.
Qed.

Lemma rel_slice_u64 : forall n, Rel (parse_slice (host h pl) PB (elem_u64 (host h pl)) n) (parse_slice_by E pl PB (elem_u64_by E pl) n).
Proof. intros n. apply rel_slice; [reflexivity|apply rel_u64|]. intros ->. reflexivity. Qed.
End Words.

Ltac word := first
  [ apply rel_u8 | apply rel_u16; assumption | apply rel_u32; assumption | apply rel_u64; assumption
  | apply rel_array | apply rel_trim | apply rel_rest | apply rel_bytes
  | apply rel_slice_u64; assumption ].
Ltac walk := repeat (cbv zeta; first [word | step]).

Section Records.
Context (h : order) (pl : platform) (E : byteorder) (HE : converts E pl h) (HR : reports E pl h) {S : Type} (PB : parsebuf S).

Lemma rel_header : Rel (parse_header (host h pl) PB) (parse_header_by E pl PB).
Proof. unfold parse_header, parse_header_by. walk. Qed.
Lemma rel_lost : Rel (parse_lost (host h pl) PB) (parse_lost_by E pl PB).
Proof. unfold parse_lost, parse_lost_by. walk. Qed.
Lemma rel_lost_samples : Rel (parse_lost_samples (host h pl) PB) (parse_lost_samples_by E pl PB).
Proof. unfold parse_lost_samples, parse_lost_samples_by. walk. Qed.
Lemma rel_exit : Rel (parse_exit (host h pl) PB) (parse_exit_by E pl PB).
Proof. unfold parse_exit, parse_exit_by. walk. Qed.
Lemma rel_throttle : Rel (parse_throttle (host h pl) PB) (parse_throttle_by E pl PB).
Proof. unfold parse_throttle, parse_throttle_by. walk. Qed.
Lemma rel_aux : Rel (parse_aux (host h pl) PB) (parse_aux_by E pl PB).
Proof. unfold parse_aux, parse_aux_by. walk. Qed.
Lemma rel_itrace_start : Rel (parse_itrace_start (host h pl) PB) (parse_itrace_start_by E pl PB).
Proof. unfold parse_itrace_start, parse_itrace_start_by. walk. Qed.
Lemma rel_switch_cpu_wide : Rel (parse_switch_cpu_wide (host h pl) PB) (parse_switch_cpu_wide_by E pl PB).
Proof. unfold parse_switch_cpu_wide, parse_switch_cpu_wide_by. walk. Qed.
Lemma rel_bpf_event : Rel (parse_bpf_event (host h pl) PB) (parse_bpf_event_by E pl PB).
Proof. unfold parse_bpf_event, parse_bpf_event_by. walk. Qed.
Lemma rel_aux_output_hw_id : Rel (parse_aux_output_hw_id (host h pl) PB) (parse_aux_output_hw_id_by E pl PB).
Proof. unfold parse_aux_output_hw_id, parse_aux_output_hw_id_by. walk. Qed.
Lemma rel_mmap : Rel (parse_mmap (host h pl) PB) (parse_mmap_by E pl PB).
Proof. unfold parse_mmap, parse_mmap_by. walk. Qed.
Lemma rel_mmap_detail : Rel (parse_mmap_detail (host h pl) PB) (parse_mmap_detail_by E pl PB).
Proof. unfold parse_mmap_detail, parse_mmap_detail_by. walk. Qed.
Lemma rel_mmap2 : Rel (parse_mmap2 (host h pl) PB) (parse_mmap2_by E pl PB).
Proof. unfold parse_mmap2, parse_mmap2_by. repeat (first [apply rel_mmap_detail | word | step]). Qed.
Lemma rel_comm : Rel (parse_comm (host h pl) PB) (parse_comm_by E pl PB).
Proof. unfold parse_comm, parse_comm_by. walk. Qed.
Lemma rel_ksymbol : Rel (parse_ksymbol (host h pl) PB) (parse_ksymbol_by E pl PB).
Proof. unfold parse_ksymbol, parse_ksymbol_by. walk. Qed.
Lemma rel_cgroup : Rel (parse_cgroup (host h pl) PB) (parse_cgroup_by E pl PB).
Proof. unfold parse_cgroup, parse_cgroup_by. walk. Qed.
Lemma rel_text_poke : Rel (parse_text_poke (host h pl) PB) (parse_text_poke_by E pl PB).
Proof. unfold parse_text_poke, parse_text_poke_by. walk. Qed.
Lemma rel_sample_id : Rel (parse_sample_id (host h pl) PB) (parse_sample_id_by E pl PB).
Proof. unfold parse_sample_id, parse_sample_id_by. walk. Qed.
Lemma rel_read_value : Rel (parse_read_value (host h pl) PB) (parse_read_value_by E pl PB).
Proof. unfold parse_read_value, parse_read_value_by. walk. Qed.
Lemma rel_read : Rel (parse_read (host h pl) PB) (parse_read_by E pl PB).
Proof. unfold parse_read, parse_read_by. repeat (first [apply rel_read_value | word | step]). Qed.
Lemma rel_read_group : Rel (parse_read_group (host h pl) PB) (parse_read_group_by E pl PB).
Proof.
  unfold parse_read_group, parse_read_group_by. apply rel_cfg. intros c. cbv zeta.
  change (read_format (recfg e c)) with (read_format c). apply rel_if; [apply rel_fail|]. apply rel_if; [apply rel_fail|].
  apply rel_bind; [word|]. intros nr. change (as_usize (host h pl)) with (as_usize pl).
  change (checked_mul (host h pl)) with (checked_mul pl). walk.
Qed.
Lemma rel_namespaces : Rel (parse_namespaces (host h pl) PB) (parse_namespaces_by E pl PB).
Proof.
  unfold parse_namespaces, parse_namespaces_by. do 3 (apply rel_bind; [word|intros]).
  apply rel_bind; [|steps]. apply rel_slice; [assumption|reflexivity| |intros ->; reflexivity].
  cbn [elem_ns elem_ns_by el_parse]. unfold parse_ns_entry, parse_ns_entry_by. walk.
Qed.
Lemma rel_registers : forall m, Rel (parse_registers (host h pl) PB m) (parse_registers_by E pl PB m).
Proof. intros m. unfold parse_registers, parse_registers_by. walk. Qed.
Lemma rel_sample_read : Rel (parse_sample_read (host h pl) PB) (parse_sample_read_by E pl PB).
Proof.
  unfold parse_sample_read, parse_sample_read_by. apply rel_cfg. intros c. apply rel_if; [apply rel_read_group|].
  apply rel_bind; [apply rel_read_value|steps].
Qed.
Lemma rel_callchain : Rel (parse_callchain (host h pl) PB) (parse_callchain_by E pl PB).
Proof. unfold parse_callchain, parse_callchain_by. apply rel_bind; [word|]. intros nr.
  change (as_usize (host h pl)) with (as_usize pl). word. Qed.
Lemma rel_raw : Rel (parse_raw (host h pl) PB) (parse_raw_by E pl PB).
Proof. unfold parse_raw, parse_raw_by. apply rel_padded. walk. Qed.
Lemma rel_lbr : forall b, Rel (parse_lbr (host h pl) PB b) (parse_lbr_by E pl PB b).
Proof.
  intros b. unfold parse_lbr, parse_lbr_by. apply rel_bind; [word|]. intros nr. cbv zeta.
  apply rel_bind; [apply rel_parse_if; word|]. intros hw. apply rel_bind; [|steps].
  apply rel_slice; [assumption|reflexivity| |intros ->; reflexivity].
  cbn [elem_branch elem_branch_by el_parse]. unfold parse_branch_entry, parse_branch_entry_by. walk.
Qed.
Lemma rel_stack_user : Rel (parse_stack_user (host h pl) PB) (parse_stack_user_by E pl PB).
Proof. unfold parse_stack_user, parse_stack_user_by. walk. Qed.
Lemma rel_sample_aux : Rel (parse_sample_aux (host h pl) PB) (parse_sample_aux_by E pl PB).
Proof. unfold parse_sample_aux, parse_sample_aux_by. walk. Qed.

Lemma rel_sample : Rel (parse_sample (host h pl) PB) (parse_sample_by E pl PB).
Proof.
  unfold parse_sample, parse_sample_by. apply rel_cfg. intros c. cbv zeta.
  change (sample_type (recfg e c)) with (sample_type c). change (branch_hw_index (recfg e c)) with (branch_hw_index c).
  change (c_regs_user (recfg e c)) with (c_regs_user c). change (c_regs_intr (recfg e c)) with (c_regs_intr c).
  repeat (first [ apply rel_sample_read | apply rel_callchain | apply rel_raw | apply rel_lbr | apply rel_registers
                | apply rel_stack_user | apply rel_sample_aux | word | step ]).
Qed.

Lemma rel_dispatch : forall O (V : visitor O) md, Rel (dispatch (host h pl) PB V md) (dispatch_by E pl PB V md).
Proof.
  intros O V md. unfold dispatch, dispatch_by. cbv zeta.
  repeat (apply rel_if; [apply rel_bind; [|intros; apply rel_lift]|]);
    first [ apply rel_mmap | apply rel_lost | apply rel_comm | apply rel_exit | apply rel_throttle
          | apply rel_read | apply rel_sample | apply rel_mmap2 | apply rel_aux | apply rel_itrace_start
          | apply rel_lost_samples | apply rel_switch_cpu_wide | apply rel_namespaces | apply rel_ksymbol
          | apply rel_bpf_event | apply rel_cgroup | apply rel_text_poke | apply rel_aux_output_hw_id
          | apply rel_bind; [apply rel_rest|intros; apply rel_lift] ].
Qed.
End Records.

Section Framing.
Context (h : order) (pl : platform) (E : byteorder) (HE : converts E pl h) (HR : reports E pl h).

Definition again (x : parser cursor * metadata) : parser cursor * metadata := (recast e (fst x), snd x).

Section On.
Context {S : Type} (PB : parsebuf S).

Lemma relv_metadata_with_header : forall hd,
  RelV again (parse_metadata_with_header (host h pl) PB hd) (parse_metadata_with_header_by E pl PB hd).
Proof.
  intros hd. unfold parse_metadata_with_header, parse_metadata_with_header_by.
  destruct (checked_sub (h_size hd) 8) as [n|]; [|apply relv_fail].
  apply (relv_bind2 _ _ _ _ (recast e)); [apply relv_split|]. intros rp.
  destruct ((h_type hd =? PERF_RECORD_MMAP) || (h_type hd =? PERF_RECORD_SAMPLE));
    [apply (relv_ret _ _ again (rp, _))|].
  change (estimate_len (p_cfg (recast e rp))) with (estimate_len (p_cfg rp)).
  destruct (checked_sub n (estimate_len (p_cfg rp))) as [k|]; [|apply relv_fail].
  apply (relv_bind2 _ _ _ _ (fun x => (recast e (fst x), snd x))).
  - apply relv_sub. apply (relv_bind2 _ _ _ _ (recast e)); [apply relv_split|]. intros q.
    apply relv_bind1; [now apply rel_sample_id|]. intros si. apply (relv_ret _ _ (fun x => (recast e (fst x), snd x)) (q, si)).
  - intros [q si]. apply (relv_ret _ _ again (q, _)).
Qed.

Lemma relv_metadata : RelV again (parse_metadata (host h pl) PB) (parse_metadata_by E pl PB).
Proof.
  unfold parse_metadata, parse_metadata_by. apply relv_bind1; [now apply rel_header|].
  intros hd. apply relv_metadata_with_header.
Qed.

Lemma rel_record_with_header : forall O (V : visitor O) hd,
  Rel (parse_record_with_header (host h pl) PB V hd) (parse_record_with_header_by E pl PB V hd).
Proof.
  intros O V hd. unfold parse_record_with_header, parse_record_with_header_by.
  apply (relv_bind _ _ _ again); [apply relv_metadata_with_header|]. intros [q md]. cbn [again fst snd recast p_buf p_cfg].
  unfold parse_record_impl, parse_record_impl_by.
  destruct (cursor_as_slice (p_buf q)) as [d|].
  - apply (rel_sub _ _ _ _ (new_parser d (with_misc (p_cfg q) (md_misc md)))). now apply rel_dispatch.
  - apply (rel_sub _ _ _ _ (new_parser (p_buf q) (with_misc (p_cfg q) (md_misc md)))). now apply rel_dispatch.
Qed.

Lemma rel_record : forall O (V : visitor O), Rel (parse_record (host h pl) PB V) (parse_record_by E pl PB V).
Proof.
  intros O V. unfold parse_record, parse_record_by. apply rel_bind; [now apply rel_header|].
  intros hd. apply rel_record_with_header.
Qed.
End On.

Lemma rel_attr_fields : forall S (PB : parsebuf S) t sz,
  Rel (parse_attr_fields (host h pl) PB t sz) (parse_attr_fields_by E pl PB t sz).
Proof. intros S PB t sz. unfold parse_attr_fields, parse_attr_fields_by, or0. walk. Qed.

Lemma rel_attr : forall S (PB : parsebuf S), Rel (parse_attr (host h pl) PB) (parse_attr_by E pl PB).
Proof.
  intros S PB. unfold parse_attr, parse_attr_by. do 2 (apply rel_bind; [word|intros]).
  apply rel_if; [apply rel_fail|]. change (as_usize (host h pl)) with (as_usize pl).
  destruct (checked_sub (as_usize pl x0) 4) as [n|]; [|apply rel_panic].
  apply (relv_bind _ _ _ (recast e)); [apply relv_split|]. intros q. apply rel_sub, rel_attr_fields.
Qed.
End Framing.
End Rel.
