(** The flat parsers of Copied.v and Placed.v on two hosts side by side, as those of Flat.v in Hosts.v. *)
From Coq Require Import NArith List Bool Lia.
From Verif Require Import Base BaseFacts Types Platform Config Records Sample Record Flat Refine RefTop.
From Verif Require Import PokeFacts Copied Placed Hosts.
Import ListNotations.
Open Scope N_scope.

Section Copied.
Context (pl pl' : platform) (o : order) (strict : bool).
Notation near := (near pl pl' o strict).

Lemma near_poke_copied : forall B, near B eq (f_poke_copied pl) (f_poke_copied pl').
Proof.
  intros B. unfold f_poke_copied. apply near_then; [|intros x; now apply near_ret]. unfold f_poke_raw.
  do 3 (apply near_then; [apply near_uint|intros ?]).
  apply near_then; [apply near_take_eq|intros ?]. now apply near_ret.
Qed.

Lemma near_record_copied : forall B, pl_ok pl' ->
  (order_eqb o (pl_host pl') = true -> order_eqb o (pl_host pl) = true) -> pl_bits pl' <= pl_bits pl ->
  (strict = true -> order_eqb o (pl_host pl) = order_eqb o (pl_host pl') /\ pl_bits pl = pl_bits pl') ->
  near B eq (f_record_copied pl) (f_record_copied pl').
Proof.
  intros B Hpl Hn Hb Hs. unfold f_record_copied. eapply near_bind; [apply near_header_small|]. intros h y [<- Hh].
  unfold f_record_with_header_copied. eapply near_bind; [apply near_metadata|]. intros x y (<- & Hx & Hl).
  apply near_cfg. intros c c' Hc. apply near_then; [|intros b; now apply near_ret].
  apply (near_sub _ _ _ _ _ _ B (h_size h)); [now apply alike_misc|exact Hx|exact Hl|].
  unfold f_body_copied. destruct (h_type h =? 20).
  - apply near_then; [apply near_poke_copied|intros r; now apply near_ret].
  - apply near_body; try assumption. unfold usize_max. destruct Hpl as [-> | ->]; lia.
Qed.
End Copied.

Section Placed.
Context (pl pl' : platform) (o : order) (strict : bool) (bad : N -> bool) (B : N).
Notation near := (near pl pl' o strict).
Context (Hnat : order_eqb o (pl_host pl) = order_eqb o (pl_host pl')).
Context (Hbits : pl_bits pl' <= pl_bits pl).
Context (Hmax : strict = false -> B <= usize_max pl').
Context (Hst : strict = true -> pl_bits pl = pl_bits pl').

Local Lemma Hn : order_eqb o (pl_host pl') = true -> order_eqb o (pl_host pl) = true.
Proof. now rewrite Hnat. Qed.
Local Lemma Hs : strict = true -> order_eqb o (pl_host pl) = order_eqb o (pl_host pl') /\ pl_bits pl = pl_bits pl'.
Proof. intros E. split; [exact Hnat|exact (Hst E)]. Qed.

Local Lemma usize_near : forall n,
  (as_usize pl n <= B -> as_usize pl n = as_usize pl' n) /\ (strict = true -> as_usize pl n = as_usize pl' n).
Proof. intros n. apply (near_usize pl pl' o strict B); [exact Hbits|exact Hmax|exact Hs]. Qed.

Lemma near_g_array : forall A (E : felem A) n n', 1 <= fl_size E ->
  (n <= B -> n = n') -> (strict = true -> n = n') -> near B eq (g_array pl bad E n) (g_array pl' bad E n').
Proof.
  intros A E n n' He H1 H2 env env' l pos [(_ & _ & _ & E1 & E2) Ef] Hb Hl. unfold g_array. rewrite E1, E2, Hnat. cbv zeta.
  assert (Hm : n <= n * fl_size E).
  { rewrite <- (N.mul_1_r n) at 1. now apply N.mul_le_mono_l. }
  destruct strict.
  { rewrite (H2 eq_refl). unfold usize_max. rewrite (Hst eq_refl), Ef.
    destruct (order_eqb o (pl_host pl') && _); [auto|]. destruct (order_eqb o (pl_host pl') && _); [auto|].
    destruct (N.ltb_spec (len l) (n' * fl_size E)) as [H|H]; [auto|].
    destruct (order_eqb o (pl_host pl') && _ && bad pos).
    - destruct (_ <? _); [auto|]. repeat split; [now apply bytes_drop, bytes_drop|]. rewrite !len_drop. lia.
    - repeat split; [now apply bytes_drop|]. rewrite len_drop. lia. }
  assert (Hd : forall (y : fout (list A)) (e : perror) (l1 : list N) (k : N),
    match y with
    | FOk _ _ _ _ => false = false
    | FErr e' l2 k' _ => false = true -> e = e' /\ l1 = l2 /\ k = k'
    end).
  { intros [] ? ? ?; [reflexivity|discriminate]. }
  destruct (order_eqb o (pl_host pl') && (usize_max pl <? _)); [apply Hd|].
  destruct (order_eqb o (pl_host pl') && (len l =? 0)) eqn:E0; [apply Hd|].
  destruct (N.ltb_spec (len l) (n * fl_size E)) as [H|H]; [apply Hd|].
  rewrite <- (H1 ltac:(lia)).
  assert (order_eqb o (pl_host pl') && (usize_max pl' <? n * fl_size E) = false) as ->.
  { specialize (Hmax eq_refl). rewrite (proj2 (N.ltb_ge _ _)) by lia. apply andb_false_r. }
  rewrite (proj2 (N.ltb_ge (len l) (n * fl_size E))) by exact H.
  destruct (order_eqb o (pl_host pl') && _ && bad pos).
  - destruct (_ <? _); [discriminate|]. repeat split; [now apply bytes_drop, bytes_drop|]. rewrite !len_drop. lia.
  - repeat split; [now apply bytes_drop|]. rewrite len_drop. lia.
Qed.

Local Lemma g_counted : forall A (E : felem A) n, 1 <= fl_size E ->
  near B eq (g_array pl bad E (as_usize pl n)) (g_array pl' bad E (as_usize pl' n)).
Proof. intros A E n He. destruct (usize_near n). now apply near_g_array. Qed.

Local Lemma g_known : forall A (E : felem A) n, 1 <= fl_size E -> near B eq (g_array pl bad E n) (g_array pl' bad E n).
Proof. intros A E n He. now apply near_g_array. Qed.

Local Ltac word := apply near_then; [first [apply near_uint|apply near_if, near_uint]|intros ?].

Lemma near_g_namespaces : near B eq (g_namespaces pl bad) (g_namespaces pl' bad).
Proof.
  unfold g_namespaces. do 3 word. apply near_then; [apply g_counted; now vm_compute|intros ?]. now apply near_ret.
Qed.

Lemma near_g_read_group : near B eq (g_read_group pl bad) (g_read_group pl' bad).
Proof.
  unfold g_read_group. apply near_cfg. intros c c' (Ef & _). unfold read_format. rewrite <- Ef. cbv zeta.
  destruct (contains _ RF_GROUP); [|apply near_fail]. destruct (difference _ _ =? 0); [|apply near_fail]. cbn [negb].
  do 3 word. set (k := element_len _).
  assert (Hk : 1 <= k) by (unfold k, element_len; lia). destruct (usize_near x) as [H1 H2].
  set (n := as_usize pl x) in *. set (n' := as_usize pl' x) in *.
  assert (Hm : n <= n * k). { rewrite <- (N.mul_1_r n) at 1. now apply N.mul_le_mono_l. }
  assert (Hb : near B eq (d <~ g_array pl bad fl_u64 (n * k);; fret (mkReadGroup (F := list) (cf_read_format (c_flags c)) (unwrap_or x0 0) (unwrap_or x1 0) d))
                         (d <~ g_array pl' bad fl_u64 (n' * k);; fret (mkReadGroup (F := list) (cf_read_format (c_flags c)) (unwrap_or x0 0) (unwrap_or x1 0) d))).
  { apply near_then; [|intros ?; now apply near_ret]. apply near_g_array; [now vm_compute| |].
    - intros H. rewrite H1 by lia. reflexivity.
    - intros H. now rewrite (H2 H). }
  destruct (N.ltb_spec (usize_max pl) (n * k)) as [H|H], (N.ltb_spec (usize_max pl') (n' * k)) as [H'|H'].
  - apply near_fail.
  - intros env env' l pos He Hy Hl. unfold ffail. destruct strict eqn:Es.
    + exfalso. specialize (H2 eq_refl). pose proof (Hst eq_refl) as E. unfold usize_max in *. rewrite H2, E in H. lia.
    + match goal with |- match ?y with FOk _ _ _ _ => _ | FErr _ _ _ _ => _ end => destruct y end; [reflexivity|discriminate].
  - intros env env' l pos He Hy Hl. clear Hb. unfold fbind, g_array in *. cbv zeta in *.
    destruct strict eqn:Es.
    { exfalso. specialize (H2 eq_refl). pose proof (Hst eq_refl) as E. unfold usize_max in *. rewrite <- H2, <- E in H'. lia. }
    change (fl_size fl_u64) with 8 in *.
    destruct (order_eqb (order_of pl _) (pl_host pl) && (usize_max pl <? n * k * 8)); [intros X; discriminate|].
    destruct (order_eqb (order_of pl _) (pl_host pl) && (len l =? 0)); [intros X; discriminate|].
    destruct (N.ltb_spec (len l) (n * k * 8)) as [Hs|Hs]; [intros X; discriminate|].
    exfalso. rewrite <- H1 in H' by lia. specialize (Hmax eq_refl). lia.
  - exact Hb.
Qed.

Lemma near_g_registers : forall m, near B eq (g_registers pl bad m) (g_registers pl' bad m).
Proof.
  intros m. unfold g_registers. word. apply near_then; [apply g_known; now vm_compute|intros ?]. now apply near_ret.
Qed.

Lemma near_g_sample_read : near B eq (g_sample_read pl bad) (g_sample_read pl' bad).
Proof.
  unfold g_sample_read. apply near_cfg. intros c c' (Ef & _). unfold read_format. rewrite <- Ef.
  destruct (contains _ _); [apply near_g_read_group|]. apply near_then; [apply near_read_value|intros ?]. now apply near_ret.
Qed.

Lemma near_g_callchain : near B eq (g_callchain pl bad) (g_callchain pl' bad).
Proof. unfold g_callchain. word. apply g_counted. now vm_compute. Qed.

Lemma near_g_lbr : forall hw, near B eq (g_lbr pl bad hw) (g_lbr pl' bad hw).
Proof.
  intros hw. unfold g_lbr. do 2 word. apply near_then; [apply g_counted; now vm_compute|intros ?]. now apply near_ret.
Qed.

Lemma near_g_sample : near B eq (g_sample pl bad) (g_sample pl' bad).
Proof.
  unfold g_sample. apply near_cfg. intros c c' (Ef & Eu & Ei & _). cbv zeta.
  unfold sample_type, branch_hw_index. rewrite <- Ef, <- Eu, <- Ei.
  do 8 word.
  apply near_then; [apply near_if; do 2 word; now apply near_ret|intros ?]. word.
  apply near_then; [apply near_if, near_g_sample_read|intros ?].
  apply near_then; [apply near_if, near_g_callchain|intros ?].
  apply near_then; [apply near_if, near_raw; auto using Hn, Hs|intros ?].
  apply near_then; [apply near_if, near_g_lbr|intros ?].
  apply near_then; [apply near_if, near_g_registers|intros ?].
  apply near_then; [apply near_if, near_stack_user; auto using Hn, Hs|intros ?].
  do 3 word.
  apply near_then; [apply near_if, near_g_registers|intros ?].
  do 4 word.
  apply near_then; [apply near_if, near_sample_aux; auto using Hn, Hs|intros ?]. now apply near_ret.
Qed.

Lemma near_g_body : forall t, near B eq (g_body pl bad t) (g_body pl' bad t).
Proof.
  intros t. unfold g_body. destruct (t =? 9); [|destruct (t =? 16)].
  - apply near_then; [apply near_g_sample|]. intros ?. now apply near_ret.
  - apply near_then; [apply near_g_namespaces|]. intros ?. now apply near_ret.
  - apply near_body; auto using Hn, Hs.
Qed.
End Placed.

Lemma near_record_placed : forall pl pl' o strict bad B, pl_ok pl' ->
  order_eqb o (pl_host pl) = order_eqb o (pl_host pl') -> pl_bits pl' <= pl_bits pl ->
  (strict = true -> pl_bits pl = pl_bits pl') ->
  near pl pl' o strict B eq (g_record pl bad) (g_record pl' bad).
Proof.
  intros pl pl' o strict bad B Hpl Hn Hb Hs. unfold g_record.
  eapply near_bind; [apply near_header_small|]. intros h y [<- Hh].
  unfold g_record_with_header. eapply near_bind; [apply near_metadata|]. intros x y (<- & Hx & Hl).
  apply near_cfg. intros c c' Hc. apply near_then; [|intros b; now apply near_ret].
  apply (near_sub _ _ _ _ _ _ B (h_size h)); [now apply alike_misc|exact Hx|exact Hl|].
  apply near_g_body; try assumption. unfold usize_max. destruct Hpl as [-> | ->]; lia.
Qed.
