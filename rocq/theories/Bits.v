(** Facts about single bits and flags. *)
From Coq Require Import NArith List Bool Lia.
From Verif Require Import Base BaseFacts Config.
Import ListNotations.
Open Scope N_scope.

Lemma land_pow2 : forall x k, N.land x (2 ^ k) = if N.testbit x k then 2 ^ k else 0.
Proof.
  intros x k. apply N.bits_inj; intros i. rewrite N.land_spec, N.pow2_bits_eqb.
  destruct (N.eqb_spec k i) as [<-|H].
  - rewrite andb_true_r. destruct (N.testbit x k); [now rewrite N.pow2_bits_true|now rewrite N.bits_0].
  - rewrite andb_false_r. destruct (N.testbit x k); [now rewrite N.pow2_bits_false|now rewrite N.bits_0].
Qed.

Lemma contains_pow2 : forall x k, contains x (2 ^ k) = N.testbit x k.
Proof.
  intros x k. unfold contains. rewrite land_pow2. destruct (N.testbit x k); [apply N.eqb_refl|].
  apply N.eqb_neq. apply not_eq_sym, N.pow_nonzero. lia.
Qed.

Lemma contains_bits : forall x m,
  contains x m = true <-> forall i, N.testbit m i = true -> N.testbit x i = true.
Proof.
  intros x m. unfold contains. rewrite N.eqb_eq. split.
  - intros H i Hi. rewrite <- H, N.land_spec in Hi. now apply andb_true_iff in Hi.
  - intros H. apply N.bits_inj; intros i. rewrite N.land_spec.
    destruct (N.testbit m i) eqn:E; [rewrite (H i E); reflexivity|apply andb_false_r].
Qed.

Definition b2n (b : bool) : N := if b then 1 else 0.

Lemma element_len_eq : forall rf,
  element_len rf = 1 + b2n (N.testbit rf 2) + b2n (N.testbit rf 4).
Proof.
  intros rf. unfold element_len. rewrite N.land_lor_distr_r. unfold RF_ID, RF_LOST.
  rewrite !land_pow2. destruct (N.testbit rf 2), (N.testbit rf 4); reflexivity.
Qed.
