(** The flat parsers of Flat.v on two hosts side by side. *)
From Coq Require Import NArith List Bool Lia.
From Verif Require Import Base BaseFacts Types Platform Config Records Sample Record Attr Flat Bits Refine RefTop.
Import ListNotations.
Open Scope N_scope.

(** The same configuration but for the name of the byte order, which is [o] on both hosts. *)
Definition alike (pl pl' : platform) (o : order) (c c' : config) : Prop :=
  c_flags c = c_flags c' /\ c_regs_user c = c_regs_user c' /\ c_regs_intr c = c_regs_intr c' /\
  order_of pl (c_endian c) = o /\ order_of pl' (c_endian c') = o.

Definition alike_env (pl pl' : platform) (o : order) (env env' : fenv) : Prop :=
  alike pl pl' o (fe_cfg env) (fe_cfg env') /\ fe_fin env = fe_fin env'.

Section Near.
Context (pl pl' : platform) (o : order) (strict : bool).

(** On at most [B] bytes, what [m] reads, [m'] reads likewise.  If [strict] then [m'] also
    fails like [m]. *)
Definition near {A A' : Type} (B : N) (R : A -> A' -> Prop) (m : F A) (m' : F A') : Prop :=
  forall env env' l pos, alike_env pl pl' o env env' -> bytes l -> len l <= B ->
  match m env l pos, m' env' l pos with
  | FOk x l1 k _, FOk y l2 k' _ => l1 = l2 /\ k = k' /\ bytes l1 /\ len l1 <= B /\ R x y
  | FErr e l1 k _, FErr e' l2 k' _ => strict = true -> e = e' /\ l1 = l2 /\ k = k'
  | FErr _ _ _ _, FOk _ _ _ _ => strict = false
  | FOk _ _ _ _, FErr _ _ _ _ => False
  end.

Context (B : N).

Lemma near_ret : forall A A' (R : A -> A' -> Prop) x y, R x y -> near B R (fret x) (fret y).
Proof. intros A A' R x y H env env' l pos _ Hb Hl. now cbn. Qed.

Lemma near_fail : forall A A' (R : A -> A' -> Prop) e, near B R (ffail e) (ffail e).
Proof. intros A A' R e env env' l pos _ Hb Hl. now cbn. Qed.

Lemma near_bind : forall A A' C C' (R : A -> A' -> Prop) (R' : C -> C' -> Prop) m m' k k',
  near B R m m' -> (forall x y, R x y -> near B R' (k x) (k' y)) -> near B R' (fbind m k) (fbind m' k').
Proof.
  intros A A' C C' R R' m m' k k' Hm Hk env env' l pos He Hb Hl. unfold fbind. specialize (Hm env env' l pos He Hb Hl).
  destruct (m env l pos) as [x l1 q ev|e l1 q ev], (m' env' l pos) as [y l2 q' ev'|e' l2 q' ev'].
  - destruct Hm as (-> & -> & Hb2 & Hl2 & Hr). specialize (Hk x y Hr env env' l2 q' He Hb2 Hl2).
    destruct (k x env l2 q'), (k' y env' l2 q'); exact Hk.
  - contradiction.
  - destruct (k' y env' l2 q'); [exact Hm|intros E; rewrite E in Hm; discriminate].
  - exact Hm.
Qed.

Lemma near_then : forall A C C' (R' : C -> C' -> Prop) (m m' : F A) k k',
  near B eq m m' -> (forall x, near B R' (k x) (k' x)) -> near B R' (fbind m k) (fbind m' k').
Proof. intros A C C' R' m m' k k' Hm Hk. eapply near_bind; [exact Hm|]. intros x y <-. apply Hk. Qed.

Lemma near_cfg : forall A A' (R : A -> A' -> Prop) k k',
  (forall c c', alike pl pl' o c c' -> near B R (k c) (k' c')) -> near B R (fbind fcfg k) (fbind fcfg k').
Proof.
  intros A A' R k k' H env env' l pos He Hb Hl. unfold fbind, fcfg. cbn.
  specialize (H _ _ (proj1 He) env env' l pos He Hb Hl).
  destruct (k (fe_cfg env) env l pos), (k' (fe_cfg env') env' l pos); exact H.
Qed.

Lemma near_weak : forall A A' (R R' : A -> A' -> Prop) m m',
  near B R m m' -> (forall x y, R x y -> R' x y) -> near B R' m m'.
Proof.
  intros A A' R R' m m' Hm H env env' l pos He Hb Hl. specialize (Hm env env' l pos He Hb Hl).
  destruct (m env l pos), (m' env' l pos); try exact Hm. destruct Hm as (? & ? & ? & ? & ?). repeat split; auto.
Qed.

(** [n] bytes, where [n'] may differ from [n] if it is too large. *)
Lemma near_take_as : forall n n', (n <= B -> n = n') -> (strict = true -> n = n') ->
  near B (fun x y => x = y /\ n = n' /\ bytes x /\ len x = n) (f_take n) (f_take n').
Proof.
  intros n n' H1 H2 env env' l pos [_ Ef] Hb Hl. unfold f_take. destruct l as [|b l].
  - intros _. now rewrite Ef.
  - destruct (N.ltb_spec (len (b :: l)) n) as [H|H].
    + destruct (N.ltb_spec (len (b :: l)) n') as [H'|H']; [now rewrite Ef|].
      destruct strict; [|reflexivity]. specialize (H2 eq_refl). lia.
    + assert (E : n = n') by (apply H1; lia). subst n'.
      destruct (N.ltb_spec (len (b :: l)) n); [lia|].
      split; [reflexivity|]. split; [reflexivity|]. split; [now apply bytes_drop|].
      split; [rewrite len_drop; lia|].
      split; [reflexivity|]. split; [reflexivity|]. split; [now apply bytes_take|]. rewrite len_take; lia.
Qed.

Lemma near_take : forall n, near B (fun x y => x = y /\ bytes x /\ len x = n) (f_take n) (f_take n).
Proof.
  intros n. eapply near_weak; [apply near_take_as; auto|]. intros x y (? & _ & ? & ?). auto.
Qed.

Lemma near_take_eq : forall n, near B eq (f_take n) (f_take n).
Proof. intros n. eapply near_weak; [apply near_take|]. now intros x y (? & _ & _). Qed.

Lemma near_skip : forall n, near B eq (f_skip n) (f_skip n).
Proof.
  intros n. unfold f_skip. destruct (n =? 0); [now apply near_ret|].
  apply near_then; [apply near_take_eq|]. intros _. now apply near_ret.
Qed.

Lemma near_uint_bound : forall n, near B (fun x y => x = y /\ x < 256 ^ n) (f_uint pl n) (f_uint pl' n).
Proof.
  intros n. unfold f_uint. eapply near_bind; [apply near_take|]. intros x y (<- & Hb & Hn).
  apply near_cfg. intros c c' (_ & _ & _ & -> & ->). apply near_ret. split; [reflexivity|].
  rewrite <- Hn. now apply from_order_bound.
Qed.

Lemma near_uint : forall n, near B eq (f_uint pl n) (f_uint pl' n).
Proof. intros n. eapply near_weak; [apply near_uint_bound|]. now intros x y [? _]. Qed.

Lemma near_if : forall A b (m m' : F A), near B eq m m' -> near B eq (f_if b m) (f_if b m').
Proof.
  intros A b m m' H. unfold f_if. destruct b; [|now apply near_ret].
  apply near_then; [exact H|]. intros x. now apply near_ret.
Qed.

Lemma near_or0 : forall b (m m' : F N), near B eq m m' -> near B eq (f_or0 b m) (f_or0 b m').
Proof. intros b m m' H. unfold f_or0. destruct b; [exact H|now apply near_ret]. Qed.

Lemma near_padded : forall A k (m m' : F A), near B eq m m' -> near B eq (f_padded k m) (f_padded k m').
Proof.
  intros A k m m' Hm env env' l pos He Hb Hl. unfold f_padded.
  match goal with |- context [fbind m ?f env l pos] => set (K := f) end.
  assert (H : near B eq (fbind m K) (fbind m' K)).
  { apply near_then; [exact Hm|]. intros x env1 env1' l1 pos1 He1 Hb1 Hl1. unfold K.
    refine (near_bind _ _ _ _ eq eq _ _ _ _ (near_skip _) _ env1 env1' l1 pos1 He1 Hb1 Hl1).
    intros u v _. now apply near_ret. }
  exact (H env env' l pos He Hb Hl).
Qed.

Lemma near_rest : near B eq f_rest f_rest.
Proof.
  intros env env' l pos [_ Ef] Hb Hl. unfold f_rest. rewrite Ef. destruct l as [|b l]; [auto|].
  destruct (is_eof (fe_fin env')); [|auto]. repeat split; [constructor|]. rewrite len_nil. apply N.le_0_l.
Qed.

Lemma near_string : near B eq f_string f_string.
Proof. unfold f_string. apply near_then; [apply near_rest|]. intros x. now apply near_ret. Qed.

Lemma near_split : forall n, near B (fun x y => x = y /\ bytes (fst x) /\ len (fst x) <= n) (f_split n) (f_split n).
Proof.
  intros n env env' l pos He Hb Hl. unfold f_split. destruct (n =? 0).
  - repeat split; [exact Hb|exact Hl|constructor|]. cbn. apply N.le_0_l.
  - pose proof (near_take n env env' l pos He Hb Hl) as H.
    destruct (f_take n env l pos), (f_take n env' l pos); try exact H.
    destruct H as (-> & -> & H1 & H2 & -> & H3 & H4). repeat split; try assumption. cbn [fst]. lia.
Qed.

Lemma near_event : forall b e b' e', near B eq (f_event b e) (f_event b' e').
Proof. intros b e b' e' env env' l pos He Hb Hl. now cbn. Qed.

Ltac nears :=
  match goal with
  | |- near _ _ (fret _) (fret _) => now apply near_ret
  | |- near _ _ (ffail _) (ffail _) => apply near_fail
  | |- near _ _ (f_uint _ _) (f_uint _ _) => apply near_uint
  | |- near _ _ (f_take _) (f_take _) => apply near_take_eq
  | |- near _ _ (f_if _ _) (f_if _ _) => apply near_if; nears
  | |- near _ _ (f_or0 _ _) (f_or0 _ _) => apply near_or0; nears
  | |- near _ _ f_rest f_rest => apply near_rest
  | |- near _ _ f_string f_string => apply near_string
  | |- near _ _ (f_event _ _) (f_event _ _) => apply near_event
  | |- near _ _ (fbind fcfg _) (fbind fcfg _) =>
      let Ef := fresh "Ef" in let Eu := fresh "Eu" in let Ei := fresh "Ei" in
      apply near_cfg; intros ? ? (Ef & Eu & Ei & _);
      unfold read_format, sample_type, sample_id_all, misc, branch_hw_index; rewrite <- ?Ef, <- ?Eu, <- ?Ei; nears
  | |- near _ _ (fbind _ _) (fbind _ _) => apply near_then; [nears|intros ?; cbv beta zeta; nears]
  | |- near _ _ (if ?b then _ else _) (if ?b then _ else _) => destruct b; nears
  | _ => idtac
  end.

Lemma near_header : near B eq (f_header pl) (f_header pl').
Proof. unfold f_header. nears. Qed.
Lemma near_lost : near B eq (f_lost pl) (f_lost pl').
Proof. unfold f_lost. nears. Qed.
Lemma near_lost_samples : near B eq (f_lost_samples pl) (f_lost_samples pl').
Proof. unfold f_lost_samples. nears. Qed.
Lemma near_exit : near B eq (f_exit pl) (f_exit pl').
Proof. unfold f_exit. nears. Qed.
Lemma near_throttle : near B eq (f_throttle pl) (f_throttle pl').
Proof. unfold f_throttle. nears. Qed.
Lemma near_aux : near B eq (f_aux pl) (f_aux pl').
Proof. unfold f_aux. nears. Qed.
Lemma near_itrace_start : near B eq (f_itrace_start pl) (f_itrace_start pl').
Proof. unfold f_itrace_start. nears. Qed.
Lemma near_switch_cpu_wide : near B eq (f_switch_cpu_wide pl) (f_switch_cpu_wide pl').
Proof. unfold f_switch_cpu_wide. nears. Qed.
Lemma near_bpf_event : near B eq (f_bpf_event pl) (f_bpf_event pl').
Proof. unfold f_bpf_event. nears. Qed.
Lemma near_aux_output_hw_id : near B eq (f_aux_output_hw_id pl) (f_aux_output_hw_id pl').
Proof. unfold f_aux_output_hw_id. nears. Qed.
Lemma near_mmap : near B eq (f_mmap pl) (f_mmap pl').
Proof. unfold f_mmap. nears. Qed.
Lemma near_mmap2 : near B eq (f_mmap2 pl) (f_mmap2 pl').
Proof. unfold f_mmap2, f_mmap_detail. nears. Qed.
Lemma near_comm : near B eq (f_comm pl) (f_comm pl').
Proof. unfold f_comm. nears. Qed.
Lemma near_ksymbol : near B eq (f_ksymbol pl) (f_ksymbol pl').
Proof. unfold f_ksymbol. nears. Qed.
Lemma near_cgroup : near B eq (f_cgroup pl) (f_cgroup pl').
Proof. unfold f_cgroup. nears. Qed.
Lemma near_text_poke : near B eq (f_text_poke pl) (f_text_poke pl').
Proof. unfold f_text_poke. nears. Qed.
Lemma near_sample_id : near B eq (f_sample_id pl) (f_sample_id pl').
Proof. unfold f_sample_id. nears. Qed.
Lemma near_read_value : near B eq (f_read_value pl) (f_read_value pl').
Proof. unfold f_read_value. nears. Qed.
Lemma near_read : near B eq (f_read pl) (f_read pl').
Proof. unfold f_read. nears. apply near_read_value. Qed.
Lemma near_attr_fields : forall t s, near B eq (f_attr_fields pl t s) (f_attr_fields pl' t s).
Proof. intros t s. unfold f_attr_fields. nears. Qed.

Lemma near_plain_body : forall t, t <> 9 -> t <> 16 -> near B eq (f_body pl t) (f_body pl' t).
Proof.
  intros t H9 H16. unfold f_body.
  repeat match goal with |- near _ _ (if ?t =? ?k then _ else _) _ => destruct (N.eqb_spec t k); [try contradiction|] end;
  (apply near_then; [|intros ?; now apply near_ret]).
  all: first [apply near_mmap|apply near_lost|apply near_comm|apply near_exit|apply near_throttle|apply near_read|
    apply near_mmap2|apply near_aux|apply near_itrace_start|apply near_lost_samples|apply near_switch_cpu_wide|
    apply near_ksymbol|apply near_bpf_event|apply near_cgroup|apply near_text_poke|apply near_aux_output_hw_id|
    apply near_rest].
Qed.

(** Arrays. *)
Context (Hnat : order_eqb o (pl_host pl') = true -> order_eqb o (pl_host pl) = true).
Context (Hbits : pl_bits pl' <= pl_bits pl).
Context (Hmax : strict = false -> B <= usize_max pl').
Context (Hst : strict = true -> order_eqb o (pl_host pl) = order_eqb o (pl_host pl') /\ pl_bits pl = pl_bits pl').

Lemma near_usize : forall n,
  (as_usize pl n <= B -> as_usize pl n = as_usize pl' n) /\ (strict = true -> as_usize pl n = as_usize pl' n).
Proof.
  intros n. unfold as_usize. split; [|intros E; now rewrite (proj2 (Hst E))].
  intros H. assert (C : strict = true \/ strict = false) by (destruct strict; auto).
  destruct C as [C|C]; [now rewrite (proj2 (Hst C))|]. specialize (Hmax C). unfold usize_max in Hmax.
  assert (P : 2 ^ pl_bits pl' <> 0) by (apply N.pow_nonzero; discriminate).
  replace (2 ^ pl_bits pl) with (2 ^ pl_bits pl' * 2 ^ (pl_bits pl - pl_bits pl')) in H |- *.
  2:{ rewrite <- N.pow_add_r. f_equal. lia. }
  assert (Q : 2 ^ (pl_bits pl - pl_bits pl') <> 0) by (apply N.pow_nonzero; discriminate).
  rewrite N.mod_mul_r in H |- * by assumption.
  assert (n / 2 ^ pl_bits pl' mod 2 ^ (pl_bits pl - pl_bits pl') = 0) as ->; [|lia].
  destruct (n / 2 ^ pl_bits pl' mod 2 ^ (pl_bits pl - pl_bits pl')) as [|k]; [reflexivity|]. exfalso.
  assert (2 ^ pl_bits pl' * 1 <= 2 ^ pl_bits pl' * N.pos k) by (apply N.mul_le_mono_l; lia).
  clear - H H0 Hmax P. generalize dependent (2 ^ pl_bits pl'). intros t Hm P H H0. generalize dependent (t * N.pos k). generalize (n mod t). intros; lia.
Qed.

Lemma near_array : forall A (E : felem A) n n', 1 <= fl_size E ->
  (n <= B -> n = n') -> (strict = true -> n = n') -> near B eq (f_array pl E n) (f_array pl' E n').
Proof.
  intros A E n n' He H1 H2 env env' l pos [(_ & _ & _ & E1 & E2) Ef] Hb Hl. unfold f_array. rewrite E1, E2. cbv zeta.
  assert (Hn : n <= n * fl_size E).
  { rewrite <- (N.mul_1_r n) at 1. now apply N.mul_le_mono_l. }
  destruct strict.
  { destruct (Hst eq_refl) as [E3 E4]. rewrite (H2 eq_refl), E3. unfold usize_max. rewrite E4, Ef.
    destruct (order_eqb o (pl_host pl') && _); [auto|]. destruct (order_eqb o (pl_host pl') && _); [auto|].
    destruct (N.ltb_spec (len l) (n' * fl_size E)) as [H|H]; [auto|].
    repeat split; [now apply bytes_drop|]. rewrite len_drop. lia. }
  assert (Hs : n * fl_size E <= len l -> n' = n /\ order_eqb o (pl_host pl') && (usize_max pl' <? n * fl_size E) = false).
  { intros H. split; [symmetry; apply H1; lia|]. rewrite (proj2 (N.ltb_ge _ _)) by lia. apply andb_false_r. }
  assert (Hd : forall (y : fout (list A)) (e : perror) (l1 : list N) (k : N),
    match y with
    | FOk _ _ _ _ => false = false
    | FErr e' l2 k' _ => false = true -> e = e' /\ l1 = l2 /\ k = k'
    end).
  { intros [] ? ? ?; [reflexivity|discriminate]. }
  destruct (order_eqb o (pl_host pl) && (usize_max pl <? _)); [apply Hd|].
  destruct (order_eqb o (pl_host pl) && (len l =? 0)) eqn:E0; [apply Hd|].
  destruct (N.ltb_spec (len l) (n * fl_size E)) as [H|H]; [apply Hd|].
  destruct (Hs H) as [-> ->].
  assert (order_eqb o (pl_host pl') && (len l =? 0) = false) as ->.
  { destruct (order_eqb o (pl_host pl')); [|reflexivity]. now rewrite (Hnat eq_refl) in E0. }
  rewrite (proj2 (N.ltb_ge _ _)) by exact H.
  repeat split; [now apply bytes_drop|]. rewrite len_drop. lia.
Qed.

Lemma near_counted : forall A (E : felem A) n, 1 <= fl_size E ->
  near B eq (f_array pl E (as_usize pl n)) (f_array pl' E (as_usize pl' n)).
Proof. intros A E n He. destruct (near_usize n). now apply near_array. Qed.

Lemma near_known : forall A (E : felem A) n, 1 <= fl_size E -> near B eq (f_array pl E n) (f_array pl' E n).
Proof. intros A E n He. now apply near_array. Qed.

Lemma near_namespaces : near B eq (f_namespaces pl) (f_namespaces pl').
Proof. unfold f_namespaces. nears. apply near_counted. now vm_compute. Qed.

Lemma near_read_group : near B eq (f_read_group pl) (f_read_group pl').
Proof.
  unfold f_read_group. apply near_cfg. intros c c' (Ef & _). unfold read_format. rewrite <- Ef. cbv zeta.
  destruct (contains _ RF_GROUP); [|apply near_fail]. destruct (difference _ _ =? 0); [|apply near_fail]. cbn [negb].
  do 3 (apply near_then; [nears|intros ?]). set (k := element_len _).
  assert (Hk : 1 <= k) by (unfold k, element_len; lia). destruct (near_usize x) as [H1 H2].
  set (n := as_usize pl x) in *. set (n' := as_usize pl' x) in *.
  assert (Hn : n <= n * k). { rewrite <- (N.mul_1_r n) at 1. now apply N.mul_le_mono_l. }
  assert (Hb : near B eq (d <~ f_array pl fl_u64 (n * k);; fret (mkReadGroup (F := list) (cf_read_format (c_flags c)) (unwrap_or x0 0) (unwrap_or x1 0) d))
                         (d <~ f_array pl' fl_u64 (n' * k);; fret (mkReadGroup (F := list) (cf_read_format (c_flags c)) (unwrap_or x0 0) (unwrap_or x1 0) d))).
  { apply near_then; [|intros ?; now apply near_ret]. apply near_array; [now vm_compute| |].
    - intros H. rewrite H1 by lia. reflexivity.
    - intros H. now rewrite (H2 H). }
  destruct (N.ltb_spec (usize_max pl) (n * k)) as [H|H], (N.ltb_spec (usize_max pl') (n' * k)) as [H'|H'].
  - apply near_fail.
  - intros env env' l pos He Hy Hl. unfold ffail. destruct strict eqn:Es.
    + exfalso. specialize (H2 eq_refl). destruct (Hst eq_refl) as [_ E]. unfold usize_max in *. rewrite H2, E in H. lia.
    + match goal with |- match ?y with FOk _ _ _ _ => _ | FErr _ _ _ _ => _ end => destruct y end; [reflexivity|discriminate].
  - intros env env' l pos He Hy Hl. specialize (Hb env env' l pos He Hy Hl). unfold fbind, f_array in *. cbv zeta in *.
    destruct strict eqn:Es.
    { exfalso. specialize (H2 eq_refl). destruct (Hst eq_refl) as [_ E]. unfold usize_max in *. rewrite <- H2, <- E in H'. lia. }
    change (fl_size fl_u64) with 8 in *.
    destruct (order_eqb (order_of pl _) (pl_host pl) && (usize_max pl <? n * k * 8)); [intros X; discriminate|].
    destruct (order_eqb (order_of pl _) (pl_host pl) && (len l =? 0)); [intros X; discriminate|].
    destruct (N.ltb_spec (len l) (n * k * 8)) as [Hs|Hs]; [intros X; discriminate|].
    exfalso. rewrite <- H1 in H' by lia. lia.
  - exact Hb.
Qed.

Lemma near_registers : forall m, near B eq (f_registers pl m) (f_registers pl' m).
Proof. intros m. unfold f_registers. nears. apply near_known. now vm_compute. Qed.

Lemma near_sample_read : near B eq (f_sample_read pl) (f_sample_read pl').
Proof. unfold f_sample_read. nears; [apply near_read_group|apply near_read_value]. Qed.

Lemma near_callchain : near B eq (f_callchain pl) (f_callchain pl').
Proof. unfold f_callchain. nears. apply near_counted. now vm_compute. Qed.

Lemma near_took : forall n, near B (fun x y => x = y /\ as_usize pl n = as_usize pl' n /\ bytes x /\ len x <= B)
  (f_take (as_usize pl n)) (f_take (as_usize pl' n)).
Proof.
  intros n env env' l pos He Hb Hl. destruct (near_usize n) as [H1 H2].
  pose proof (near_take_as _ _ H1 H2 env env' l pos He Hb Hl) as H.
  unfold f_take in *. destruct l as [|x l]; [exact H|].
  destruct (N.ltb_spec (len (x :: l)) (as_usize pl n)) as [G|G]; destruct (_ <? _) in *; try exact H.
  destruct H as (E1 & E2 & E3 & E4 & E5 & E6 & E7 & E8). repeat split; auto. lia.
Qed.

Lemma near_took_eq : forall n, near B eq (f_take (as_usize pl n)) (f_take (as_usize pl' n)).
Proof. intros n. eapply near_weak; [apply near_took|]. now intros x y (? & _). Qed.

Lemma near_raw : near B eq (f_raw pl) (f_raw pl').
Proof. unfold f_raw. apply near_padded. apply near_then; [apply near_uint|]. intros x. apply near_took_eq. Qed.

Lemma near_lbr : forall hw, near B eq (f_lbr pl hw) (f_lbr pl' hw).
Proof. intros hw. unfold f_lbr. nears. apply near_counted. now vm_compute. Qed.

Lemma near_stack_user : near B eq (f_stack_user pl) (f_stack_user pl').
Proof.
  unfold f_stack_user. apply near_then; [nears|]. intros n. eapply near_bind; [apply near_took|].
  intros d y (<- & E & Hd & Hl). rewrite <- E.
  apply (near_bind _ _ _ _ (fun k k' => (k <= B -> k = k') /\ (strict = true -> k = k'))).
  - destruct (as_usize pl n =? 0); [apply near_ret; auto|]. apply near_then; [nears|]. intros x. apply near_ret. apply near_usize.
  - intros k k' [H1 H2]. destruct (N.ltb_spec (len d) k) as [H|H].
    + destruct (N.ltb_spec (len d) k') as [H'|H']; [apply near_fail|].
      intros env env' l pos _ _ _. cbn. destruct strict; [|reflexivity]. specialize (H2 eq_refl). lia.
    + rewrite <- H1 by lia. rewrite (proj2 (N.ltb_ge _ _)) by exact H. now apply near_ret.
Qed.

Lemma near_sample_aux : near B eq (f_sample_aux pl) (f_sample_aux pl').
Proof. unfold f_sample_aux. apply near_then; [nears|]. intros n. apply near_took_eq. Qed.

Lemma near_sample : near B eq (f_sample pl) (f_sample pl').
Proof.
  unfold f_sample. apply near_cfg. intros c c' (Ef & Eu & Ei & _). cbv zeta.
  unfold sample_type, branch_hw_index. rewrite <- Ef, <- Eu, <- Ei.
  do 10 (apply near_then; [nears|intros ?]).
  apply near_then; [apply near_if, near_sample_read|intros ?].
  apply near_then; [apply near_if, near_callchain|intros ?].
  apply near_then; [apply near_if, near_raw|intros ?].
  apply near_then; [apply near_if, near_lbr|intros ?].
  apply near_then; [apply near_if, near_registers|intros ?].
  apply near_then; [apply near_if, near_stack_user|intros ?].
  do 3 (apply near_then; [nears|intros ?]).
  apply near_then; [apply near_if, near_registers|intros ?].
  do 4 (apply near_then; [nears|intros ?]).
  apply near_then; [apply near_if, near_sample_aux|intros ?]. now apply near_ret.
Qed.

Lemma near_body : forall t, near B eq (f_body pl t) (f_body pl' t).
Proof.
  intros t. destruct (N.eq_dec t 9) as [->|H9]; [|destruct (N.eq_dec t 16) as [->|H16]].
  - change (near B eq (r <~ f_sample pl ;; fret (BSample r)) (r <~ f_sample pl' ;; fret (BSample r))).
    apply near_then; [apply near_sample|]. intros ?. now apply near_ret.
  - change (near B eq (r <~ f_namespaces pl ;; fret (BNamespaces r)) (r <~ f_namespaces pl' ;; fret (BNamespaces r))).
    apply near_then; [apply near_namespaces|]. intros ?. now apply near_ret.
  - now apply near_plain_body.
Qed.

End Near.

Section Frames.
Context (pl pl' : platform) (o : order) (strict : bool).
Notation near := (near pl pl' o strict).

Lemma alike_misc : forall c c' m, alike pl pl' o c c' -> alike pl pl' o (with_misc c m) (with_misc c' m).
Proof. intros c c' m (E1 & E2 & E3 & E4 & E5). unfold alike, with_misc. cbn. now rewrite E1. Qed.

Lemma near_sub : forall A A' B B' (R : A -> A' -> Prop) m m' c c' st, alike pl pl' o c c' ->
  bytes (fst st) -> len (fst st) <= B' -> near B' R m m' -> near B R (f_sub m c st) (f_sub m' c' st).
Proof.
  intros A A' B B' R m m' c c' st Hc Hb' Hl' Hm env env' l pos He Hb Hl. unfold f_sub.
  specialize (Hm (mkEnv c eof_error) (mkEnv c' eof_error) (fst st) (snd st) (conj Hc eq_refl) Hb' Hl').
  destruct (m _ (fst st) _), (m' _ (fst st) _); try exact Hm.
  - destruct Hm as (_ & _ & _ & _ & Hm). auto.
  - intros E. destruct (Hm E) as (-> & _). auto.
Qed.

Lemma alike_estimate : forall c c', alike pl pl' o c c' -> estimate_len c' = estimate_len c.
Proof. intros c c' (E & _). unfold estimate_len, sample_id_all, sample_type. now rewrite E. Qed.

Lemma near_metadata : forall B h,
  near B (fun x y => x = y /\ bytes (fst (fst x)) /\ len (fst (fst x)) <= h_size h)
    (f_metadata_with_header pl h) (f_metadata_with_header pl' h).
Proof.
  intros B h. unfold f_metadata_with_header. destruct (h_size h <? 8); [apply near_fail|].
  eapply near_bind; [apply near_split|]. intros st y (<- & Hb & Hl).
  destruct ((h_type h =? 1) || (h_type h =? 9)).
  { apply near_ret. split; [reflexivity|]. split; [exact Hb|]. cbn [fst]. lia. }
  apply near_cfg. intros c c' Hc. rewrite (alike_estimate c c' Hc).
  destruct (h_size h - 8 <? estimate_len c); [apply near_fail|].
  apply (near_bind _ _ _ _ _ _ _ _ _ (fun x y => x = y /\ bytes (fst (fst x)) /\ len (fst (fst x)) <= h_size h)).
  - apply (near_sub _ _ B (h_size h)); [exact Hc|exact Hb|lia|].
    eapply near_bind; [apply near_split|]. intros x y (<- & Hb2 & Hl2).
    apply near_then; [apply near_sample_id|]. intros si. apply near_ret. split; [reflexivity|]. split; [exact Hb2|].
    cbn [fst]. lia.
  - intros x y (<- & Hb2 & Hl2). apply near_ret. now split.
Qed.

Lemma near_header_small : forall B,
  near B (fun x y => x = y /\ h_size x < 2 ^ 16) (f_header pl) (f_header pl').
Proof.
  intros B. unfold f_header. do 2 (apply near_then; [apply near_uint|intros ?]).
  eapply near_bind; [apply near_uint_bound|]. intros s y [<- Hs]. apply near_ret. now split.
Qed.

Lemma near_with_header : forall B h, near (h_size h) eq (f_body pl (h_type h)) (f_body pl' (h_type h)) ->
  near B eq (f_record_with_header pl h) (f_record_with_header pl' h).
Proof.
  intros B h H. unfold f_record_with_header. eapply near_bind; [apply near_metadata|]. intros x y (<- & Hb & Hl).
  apply near_cfg. intros c c' Hc. apply near_then.
  - apply (near_sub _ _ B (h_size h)); [now apply alike_misc|exact Hb|exact Hl|exact H].
  - intros b. now apply near_ret.
Qed.

(** Anything at all is alike on the types without arrays. *)
Lemma near_plain_with_header : forall B h, h_type h <> 9 -> h_type h <> 16 ->
  near B eq (f_record_with_header pl h) (f_record_with_header pl' h).
Proof. intros B h H1 H2. apply near_with_header. now apply near_plain_body. Qed.

Lemma near_record : forall B, pl_ok pl' ->
  (order_eqb o (pl_host pl') = true -> order_eqb o (pl_host pl) = true) -> pl_bits pl' <= pl_bits pl ->
  (strict = true -> order_eqb o (pl_host pl) = order_eqb o (pl_host pl') /\ pl_bits pl = pl_bits pl') ->
  near B eq (f_record pl) (f_record pl').
Proof.
  intros B Hpl Hn Hb Hs. unfold f_record. eapply near_bind; [apply near_header_small|]. intros h y [<- Hh].
  apply near_with_header. apply near_body; try assumption.
  unfold usize_max. destruct Hpl as [-> | ->]; lia.
Qed.

Lemma near_attr : forall B, near B eq (f_attr pl) (f_attr pl').
Proof.
  intros B. unfold f_attr. do 2 (apply near_then; [apply near_uint|intros ?]).
  destruct (negb (attr_size_ok x0)); [apply near_fail|].
  eapply near_bind; [apply near_split|]. intros st y (<- & Hb & Hl). apply near_cfg. intros c c' Hc.
  eapply near_sub; [exact Hc|exact Hb|exact Hl|apply near_attr_fields].
Qed.

End Frames.
