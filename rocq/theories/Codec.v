(** Facts about the encoders of Wire.v. *)
From Coq Require Import NArith List Bool Lia.
From Verif Require Import Base BaseFacts Platform Config Bits Records Sample Record Wire Flat.
Import ListNotations.
Open Scope N_scope.

Lemma le_bytes_length : forall n v, length (le_bytes n v) = n.
Proof. induction n; intros v; cbn; [reflexivity|]. now rewrite IHn. Qed.

Lemma le_bytes_bytes : forall n v, bytes (le_bytes n v).
Proof.
  induction n; intros v; cbn [le_bytes]; constructor; [|apply IHn]. apply N.mod_lt. discriminate.
Qed.

Lemma from_le_bytes : forall n v, v < 256 ^ N.of_nat n -> from_le (le_bytes n v) = v.
Proof.
  induction n; intros v Hv.
  - cbn in *. lia.
  - rewrite Nat2N.inj_succ, N.pow_succ_r' in Hv. cbn [le_bytes from_le].
    rewrite IHn by (apply N.div_lt_upper_bound; [discriminate|exact Hv]).
    pose proof (N.div_mod v 256 ltac:(discriminate)). lia.
Qed.

Lemma le_bytes_from : forall l, bytes l -> le_bytes (length l) (from_le l) = l.
Proof.
  induction l as [|b t IH]; intros H; [reflexivity|]. inversion H as [|? ? Hb Ht]; subst.
  cbn [length le_bytes from_le].
  rewrite (N.add_comm b), N.mul_comm.
  rewrite N.add_mod, N.mod_mul, N.add_0_l, N.mod_mod, N.mod_small by (discriminate || assumption).
  rewrite N.div_add_l, N.div_small, N.add_0_r, IH by (discriminate || assumption). reflexivity.
Qed.

Section Enc.
Context (o : order).

Lemma enc_length : forall n v, length (enc o n v) = n.
Proof. intros n v. destruct o; cbn [enc]; [|rewrite rev_length]; apply le_bytes_length. Qed.

Lemma enc_len : forall n v, len (enc o n v) = N.of_nat n.
Proof. intros n v. unfold len. now rewrite enc_length. Qed.

Lemma enc_bytes : forall n v, bytes (enc o n v).
Proof.
  intros n v. destruct o; cbn [enc]; [|apply Forall_rev]; apply le_bytes_bytes.
Qed.

Lemma from_enc : forall n v, v < 256 ^ N.of_nat n -> from_order o (enc o n v) = v.
Proof.
  intros n v Hv. destruct o; cbn [enc from_order]; [|unfold from_be; rewrite rev_involutive];
    now apply from_le_bytes.
Qed.

Lemma enc_from : forall n l, bytes l -> length l = n -> enc o n (from_order o l) = l.
Proof.
  intros n l Hb <-. destruct o; cbn [enc from_order].
  - now apply le_bytes_from.
  - unfold from_be. rewrite <- (rev_length l), le_bytes_from by now apply Forall_rev.
    apply rev_involutive.
Qed.

Lemma w8_len : forall v, len (w8 o v) = 1. Proof. intros. apply enc_len. Qed.
Lemma w16_len : forall v, len (w16 o v) = 2. Proof. intros. apply enc_len. Qed.
Lemma w32_len : forall v, len (w32 o v) = 4. Proof. intros. apply enc_len. Qed.
Lemma w64_len : forall v, len (w64 o v) = 8. Proof. intros. apply enc_len. Qed.

Lemma zeros_len : forall k, len (zeros k) = k.
Proof. intros k. unfold len, zeros. rewrite repeat_length. lia. Qed.

Lemma zeros_bytes : forall k, bytes (zeros k).
Proof. intros k. unfold zeros. induction (N.to_nat k); cbn; constructor; [lia|assumption]. Qed.

Lemma w_list_len : forall A (f : A -> list N) n (l : list A),
  (forall x, len (f x) = n) -> len (w_list f l) = len l * n.
Proof.
  intros A f n l Hf. unfold w_list. induction l as [|x t IH]; [reflexivity|].
  cbn [map concat]. rewrite len_app, len_cons, Hf, IH. lia.
Qed.

Lemma w_list_app : forall A (f : A -> list N) l r, w_list f (l ++ r) = w_list f l ++ w_list f r.
Proof. intros. unfold w_list. now rewrite map_app, concat_app. Qed.

Lemma w_list_concat : forall A B (f : A -> list N) (g : B -> list A) l,
  w_list f (concat (map g l)) = w_list (fun x => w_list f (g x)) l.
Proof.
  intros A B f g l. induction l as [|x t IH]; [reflexivity|].
  cbn [map concat]. rewrite w_list_app, IH. reflexivity.
Qed.

Lemma w_list_ext : forall A (f g : A -> list N) l, (forall x, f x = g x) -> w_list f l = w_list g l.
Proof. intros A f g l H. unfold w_list. f_equal. now apply map_ext. Qed.

Lemma w_if_len : forall b l, len (w_if b l) = if b then len l else 0.
Proof. intros [] l; reflexivity. Qed.

Lemma w_branch_len : forall b, len (w_branch o b) = 24.
Proof. intros b. unfold w_branch. rewrite !len_app, !w64_len. reflexivity. Qed.

Lemma w_ns_len : forall e, len (w_ns o e) = 16.
Proof. intros e. unfold w_ns. rewrite !len_app, !w64_len. reflexivity. Qed.

Lemma w_header_len : forall t m s, len (w_header o t m s) = 8.
Proof. intros. unfold w_header. rewrite !len_app, w32_len, !w16_len. reflexivity. Qed.

Lemma decode_list : forall B (E : felem B) (f : B -> list N) (l : list B),
  0 < fl_size E -> (forall x, len (f x) = fl_size E) ->
  Forall (fun x => fl_dec E o (f x) = x) l ->
  decode E o (w_list f l) = l.
Proof.
  intros B E f l Hs Hl Hd. unfold decode, w_list. rewrite chunks_concat; [| exact Hs |].
  - rewrite map_map. induction Hd as [|x t Hx Ht IH]; [reflexivity|]. cbn [map]. now rewrite Hx, IH.
  - apply Forall_forall. intros y Hy. apply in_map_iff in Hy. destruct Hy as [x [<- _]]. apply Hl.
Qed.

Lemma dec_u64 : forall v, v < 2 ^ 64 -> fl_dec fl_u64 o (w64 o v) = v.
Proof. intros v Hv. cbn [fl_dec fl_u64]. apply from_enc. exact Hv. Qed.

Lemma dec_ns : forall e, ns_dev e < 2 ^ 64 -> ns_inode e < 2 ^ 64 -> fl_dec fl_ns o (w_ns o e) = e.
Proof.
  intros [d i] Hd Hi. cbn [fl_dec fl_ns]. unfold w_ns. cbn [ns_dev ns_inode] in *.
  rewrite take_app_exact, drop_app_exact by now rewrite w64_len.
  unfold w64. now rewrite !from_enc.
Qed.

Lemma dec_branch : forall b, branch_ok b -> fl_dec fl_branch o (w_branch o b) = b.
Proof.
  intros [f t g] [Hf [Ht Hg]]. cbn [fl_dec fl_branch]. unfold w_branch. cbn [be_from be_to be_flags] in *.
  replace 16 with (8 + 8) by reflexivity. rewrite <- drop_drop.
  repeat first [rewrite take_app_exact by now rewrite w64_len
               |rewrite drop_app_exact by now rewrite w64_len].
  unfold w64. now rewrite !from_enc.
Qed.

End Enc.

(** [popcount] counts the bits that are set. *)
Lemma popcount_filter : forall (n : nat) x, x < 2 ^ N.of_nat n ->
  popcount x = len (filter (N.testbit x) (map N.of_nat (seq 0 n))).
Proof.
  induction n as [|n IH]; intros x Hx.
  - cbn in Hx. replace x with 0 by lia. reflexivity.
  - rewrite Nat2N.inj_succ, N.pow_succ_r' in Hx.
    assert (E : forall y b, N.testbit (2 * y + N.b2n b) 0 = b).
    { intros y b. rewrite N.testbit_0_r. reflexivity. }
    assert (E2 : forall y b i, N.testbit (2 * y + N.b2n b) (N.succ i) = N.testbit y i).
    { intros y b i. apply N.testbit_succ_r. }
    pose proof (N.div2_odd x) as Exy.
    revert Hx. rewrite Exy. generalize (N.odd x) (N.div2 x). clear x Exy. intros b y Hx.
    assert (Hy : y < 2 ^ N.of_nat n) by (destruct b; cbn [N.b2n] in Hx; lia).
    assert (Hf : filter (N.testbit (2 * y + N.b2n b)) (map N.of_nat (seq 0 (S n))) =
                 (if b then [0] else []) ++ map N.succ (filter (N.testbit y) (map N.of_nat (seq 0 n)))).
    { cbn [seq map]. change (N.of_nat 0) with 0. cbn [filter]. rewrite E.
      rewrite <- seq_shift, map_map.
      assert (Hm : filter (N.testbit (2 * y + N.b2n b)) (map (fun i => N.of_nat (S i)) (seq 0 n)) =
                   map N.succ (filter (N.testbit y) (map N.of_nat (seq 0 n)))).
      { clear IH. induction (seq 0 n) as [|i t IHt]; [reflexivity|]. cbn [map filter].
        rewrite Nat2N.inj_succ, E2.
        destruct (N.testbit y (N.of_nat i)); cbn [map]; now rewrite IHt. }
      rewrite Hm. destruct b; reflexivity. }
    rewrite Hf, len_app. unfold len at 2. rewrite map_length.
    change (N.of_nat (length (filter (N.testbit y) (map N.of_nat (seq 0 n)))))
      with (len (filter (N.testbit y) (map N.of_nat (seq 0 n)))).
    rewrite <- (IH y Hy). destruct b; cbn [N.b2n].
    + rewrite popcount_succ_double. reflexivity.
    + rewrite N.add_0_r, popcount_double. reflexivity.
Qed.

Lemma popcount_bits_set : forall x, x < 2 ^ 64 -> popcount x = bits_set x.
Proof. intros x Hx. apply (popcount_filter 64). exact Hx. Qed.

Lemma bits_set_le : forall x, bits_set x <= 64.
Proof.
  intros x. unfold bits_set, len.
  assert (H : forall A (f : A -> bool) l, (length (filter f l) <= length l)%nat).
  { intros A f l. induction l as [|a t IH]; cbn; [lia|]. destruct (f a); cbn; lia. }
  pose proof (H _ (N.testbit x) (map N.of_nat (seq 0 64))) as H1.
  rewrite map_length, seq_length in H1. lia.
Qed.
