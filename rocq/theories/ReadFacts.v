(** What the accessors of counter groups do. *)
From Coq Require Import NArith List Bool Lia.
From Verif Require Import Base BaseFacts Types Platform Config Records Read Bits Wire.
Import ListNotations.
Open Scope N_scope.

(** The words of a counter in a group with read format [rf]. *)
Definition words (rf : N) (k : counter) : list N :=
  ct_value k :: (if N.testbit rf 2 then [ct_id k] else []) ++ (if N.testbit rf 4 then [ct_lost k] else []).

Definition flat (rf : N) (ks : list counter) : list N := concat (map (words rf) ks).

(** The group [g] consists of these counters; what is left over does not make one. *)
Definition counters (g : read_group cow) (ks : list counter) : Prop :=
  exists rem, cow_list (rg_data g) = flat (rg_format g) ks ++ rem /\ len rem < element_len (rg_format g).

(** The entry for a counter. *)
Definition entry_for (rf : N) (k : counter) : group_entry :=
  mkEntry rf (ct_value k) (if N.testbit rf 2 then ct_id k else 0) (if N.testbit rf 4 then ct_lost k else 0).

Lemma words_len : forall rf k, len (words rf k) = element_len rf.
Proof.
  intros rf k. rewrite element_len_eq. unfold words.
  destruct (N.testbit rf 2), (N.testbit rf 4); reflexivity.
Qed.

Lemma el_pos : forall rf, 1 <= element_len rf <= 3.
Proof. intros rf. rewrite element_len_eq. destruct (N.testbit rf 2), (N.testbit rf 4); cbn; lia. Qed.

Lemma flat_len : forall rf ks, len (flat rf ks) = len ks * element_len rf.
Proof.
  intros rf ks. induction ks as [|k t IH]; [reflexivity|]. unfold flat in *. cbn [map concat].
  rewrite len_app, IH, words_len, len_cons. lia.
Qed.

Lemma flat_app : forall rf ks hs, flat rf (ks ++ hs) = flat rf ks ++ flat rf hs.
Proof. intros. unfold flat. now rewrite map_app, concat_app. Qed.

Lemma flat_cons : forall rf k t, flat rf (k :: t) = words rf k ++ flat rf t.
Proof. reflexivity. Qed.

Lemma flat_one : forall rf k, flat rf [k] = words rf k.
Proof. intros. unfold flat. cbn [map concat]. apply app_nil_r. Qed.

Lemma flat_take : forall rf n ks, take (n * element_len rf) (flat rf ks) = flat rf (take n ks).
Proof.
  intros rf n ks. destruct (N.le_gt_cases (len ks) n) as [H|H].
  - rewrite (take_all n) by exact H. apply take_all. rewrite flat_len. pose proof (el_pos rf). nia.
  - rewrite <- (take_drop n ks) at 1. rewrite flat_app. apply take_app_exact.
    rewrite flat_len, len_take. f_equal. lia.
Qed.

Lemma flat_drop : forall rf n ks, drop (n * element_len rf) (flat rf ks) = flat rf (drop n ks).
Proof.
  intros rf n ks. destruct (N.le_gt_cases (len ks) n) as [H|H].
  - rewrite (drop_all n) by exact H. apply drop_all. rewrite flat_len. pose proof (el_pos rf). nia.
  - rewrite <- (take_drop n ks) at 1. rewrite flat_app. apply drop_app_exact.
    rewrite flat_len, len_take. f_equal. lia.
Qed.

(** Every list of words is that of some counters. *)
Lemma word_split : forall rf d, element_len rf <= len d ->
  exists k t, d = words rf k ++ t.
Proof.
  intros rf d H. rewrite element_len_eq in H. unfold words.
  destruct (N.testbit rf 2), (N.testbit rf 4); cbn [b2n] in H.
  - destruct d as [|x [|y [|z t]]]; try (exfalso; revert H; cbn; lia).
    now exists (mkCounter x y z), t.
  - destruct d as [|x [|y t]]; try (exfalso; revert H; cbn; lia).
    now exists (mkCounter x y 0), t.
  - destruct d as [|x [|y t]]; try (exfalso; revert H; cbn; lia).
    now exists (mkCounter x 0 y), t.
  - destruct d as [|x t]; try (exfalso; revert H; cbn; lia).
    now exists (mkCounter x 0 0), t.
Qed.

Lemma counters_exist : forall g, exists ks, counters g ks.
Proof.
  intros g. unfold counters. generalize (cow_list (rg_data g)). generalize (rg_format g). intros rf d.
  assert (H : forall n d, (length d <= n)%nat ->
    exists ks rem, d = flat rf ks ++ rem /\ len rem < element_len rf).
  { clear d. induction n as [|n IH]; intros d Hd.
    - exists [], []. destruct d; [|cbn in Hd; lia]. split; [reflexivity|]. pose proof (el_pos rf). rewrite len_nil. lia.
    - destruct (N.lt_ge_cases (len d) (element_len rf)) as [Hl|Hl]; [exists [], d; now split|].
      destruct (word_split rf d Hl) as (k & t & ->).
      destruct (IH t) as (ks & rem & -> & Hr).
      { rewrite app_length in Hd. unfold words in Hd. cbn [length] in Hd. lia. }
      exists (k :: ks), rem. split; [|exact Hr]. unfold flat. cbn [map concat]. now rewrite app_assoc. }
  destruct (H (length d) d (le_n _)) as (ks & rem & E & Hr). exists ks, rem. now split.
Qed.

Lemma entry_new_words : forall rf k, entry_new rf (words rf k) = Ok (entry_for rf k).
Proof.
  intros rf k. unfold entry_new, words, RF_ID, RF_LOST. rewrite !contains_pow2. unfold entry_for.
  destruct (N.testbit rf 2), (N.testbit rf 4); reflexivity.
Qed.

(** An iterator with the counters [ks] still to come. *)
Definition holds (it : group_iter) (rf : N) (ks : list counter) : Prop :=
  it = mkIter (flat rf ks) (element_len rf) rf.

Lemma iter_new_holds : forall g ks, counters g ks ->
  iter_new g = Ok (mkIter (flat (rg_format g) ks) (element_len (rg_format g)) (rg_format g)).
Proof.
  intros g ks (rem & E & Hr). unfold iter_new. cbv zeta. rewrite E.
  pose proof (el_pos (rg_format g)) as He.
  replace (element_len (rg_format g) =? 0) with false by (symmetry; apply N.eqb_neq; lia).
  do 2 f_equal. apply take_app_exact.
  rewrite len_app, flat_len, N.add_comm, N.mod_add, (N.mod_small (len rem)) by lia. lia.
Qed.

(** Queues of entries. *)
Definition q_next {A : Type} (l : list A) : option A * list A :=
  match l with [] => (None, []) | x :: t => (Some x, t) end.
Definition q_nth {A : Type} (l : list A) (n : N) : option A * list A := q_next (drop n l).
Definition q_next_back {A : Type} (l : list A) : option A * list A :=
  match rev l with [] => (None, []) | x :: t => (Some x, rev t) end.
Definition q_nth_back {A : Type} (l : list A) (n : N) : option A * list A :=
  q_next_back (take (len l - n) l).

Section Ops.
Context (pl : platform) (rf : N).

Let it (ks : list counter) := mkIter (flat rf ks) (element_len rf) rf.
Let out_of (r : option counter * list counter) : out (option group_entry) * group_iter :=
  (Ok (option_map (entry_for rf) (fst r)), it (snd r)).

Lemma it_next_q : forall ks, it_next (it ks) = out_of (q_next ks).
Proof.
  intros ks. unfold it_next, ch_next, it. cbn [gi_v gi_size]. pose proof (el_pos rf) as He.
  destruct ks as [|k t].
  - replace (len (flat rf []) <? element_len rf) with true; [reflexivity|].
    symmetry. apply N.ltb_lt. change (0 < element_len rf). lia.
  - replace (len (flat rf (k :: t)) <? element_len rf) with false.
    + cbn [q_next]. unfold out_of. cbn [fst snd option_map].
      rewrite flat_cons, take_app_exact, drop_app_exact by now rewrite words_len.
      unfold item. cbn [gi_format]. rewrite entry_new_words. reflexivity.
    + symmetry. apply N.ltb_ge. rewrite flat_len, len_cons. nia.
Qed.

Lemma it_len_q : forall ks, it_len (it ks) = len ks.
Proof.
  intros ks. unfold it_len, ch_len, it. cbn [gi_v gi_size]. rewrite flat_len.
  apply N.div_mul. pose proof (el_pos rf). lia.
Qed.

Lemma it_nth_q : forall ks n, len (flat rf ks) <= usize_max pl ->
  it_nth pl (it ks) n = out_of (q_nth ks n).
Proof.
  intros ks n Hs. unfold it_nth, ch_nth. cbv zeta. cbn [it gi_v gi_size].
  assert (Hp : 2 ^ pl_bits pl <> 0) by (apply N.pow_nonzero; discriminate).
  pose proof (el_pos rf) as He. unfold usize_max in *.
  destruct (N.ltb_spec (2 ^ pl_bits pl - 1) (n * element_len rf)) as [H|H].
  - rewrite orb_true_r. unfold q_nth. rewrite drop_all.
    + reflexivity.
    + rewrite flat_len in Hs. nia.
  - rewrite orb_false_r, N.mod_small by lia.
    destruct (N.leb_spec (len (flat rf ks)) (n * element_len rf)) as [Hl|Hl].
    + unfold q_nth. rewrite drop_all; [reflexivity|]. rewrite flat_len in Hl. nia.
    + unfold with_v. cbn [it gi_size gi_format]. rewrite flat_drop.
      change (mkIter (flat rf (drop n ks)) (element_len rf) rf) with (it (drop n ks)).
      unfold q_nth. rewrite <- it_next_q. reflexivity.
Qed.

Lemma it_next_back_q : forall ks, it_next_back (it ks) = out_of (q_next_back ks).
Proof.
  intros ks. unfold it_next_back, ch_next_back. cbn [it gi_v gi_size]. pose proof (el_pos rf) as He.
  destruct (rev ks) as [|k t] eqn:E.
  - apply (f_equal (@rev _)) in E. rewrite rev_involutive in E. cbn [rev] in E. subst ks.
    replace (len (flat rf []) <? element_len rf) with true; [reflexivity|].
    symmetry. apply N.ltb_lt. change (0 < element_len rf). lia.
  - assert (Ek : ks = rev t ++ [k]) by (apply (f_equal (@rev _)) in E; rewrite rev_involutive in E; exact E).
    unfold q_next_back. rewrite E. subst ks.
    replace (len (flat rf (rev t ++ [k])) <? element_len rf) with false.
    + cbv zeta. rewrite flat_app, flat_one, len_app, words_len, N.add_sub.
      rewrite take_app_exact, drop_app_exact by reflexivity.
      unfold item, out_of. cbn [it gi_format fst snd option_map]. rewrite entry_new_words. reflexivity.
    + symmetry. apply N.ltb_ge. rewrite flat_len, len_app. change (len [k]) with 1. nia.
Qed.

Lemma it_last_q : forall ks, it_last (it ks) = fst (out_of (q_next_back ks)).
Proof.
  intros ks. rewrite <- it_next_back_q. unfold it_last, it_next_back.
  now destruct (ch_next_back (it ks)).
Qed.

Lemma it_nth_back_q : forall ks n, it_nth_back (it ks) n = out_of (q_nth_back ks n).
Proof.
  intros ks n. unfold it_nth_back, ch_nth_back. pose proof (it_len_q ks) as Hl. unfold it_len in Hl.
  rewrite Hl. cbn [it gi_v gi_size]. pose proof (el_pos rf) as He.
  destruct (N.leb_spec (len ks) n) as [H|H].
  - unfold q_nth_back. replace (len ks - n) with 0 by lia. rewrite take_0. reflexivity.
  - cbv zeta. rewrite flat_take, flat_drop. unfold q_nth_back.
    set (m := len ks - 1 - n).
    assert (Em : len ks - n = m + 1) by lia. rewrite Em, take_plus.
    assert (Hd : exists k t, drop m ks = k :: t).
    { destruct (drop m ks) as [|k t] eqn:E; [|eauto]. apply drop_eq_nil in E. lia. }
    destruct Hd as (k & t & Hd). rewrite Hd. change (take 1 (k :: t)) with (k :: take 0 t).
    rewrite take_0. unfold q_next_back. rewrite rev_app_distr. cbn [rev app].
    rewrite flat_cons, take_app_exact by now rewrite words_len.
    unfold item, out_of. cbn [it gi_format fst snd option_map]. rewrite entry_new_words, rev_involutive.
    reflexivity.
Qed.

Lemma it_find_q : forall f ks fuel, (length ks < fuel)%nat ->
  it_find fuel f (it ks) = Ok (find f (map (entry_for rf) ks)).
Proof.
  intros f ks fuel. revert ks. induction fuel as [|n IH]; intros ks Hf; [lia|].
  cbn [it_find]. rewrite it_next_q. destruct ks as [|k t]; [reflexivity|].
  cbn [q_next out_of fst snd option_map obind map find].
  destruct (f (entry_for rf k)); [reflexivity|]. apply IH. cbn in Hf. lia.
Qed.

End Ops.
