(** Facts about the list and number helpers of Base.v. *)
From Coq Require Import NArith List Bool Lia Arith.
From Verif Require Import Base.
Import ListNotations.
Open Scope N_scope.

Section Lists.
Context {A : Type}.
Implicit Types l r : list A.

Lemma len_nil : len (@nil A) = 0.
Proof. reflexivity. Qed.

Lemma len_cons : forall x l, len (x :: l) = 1 + len l.
Proof. intros; unfold len; cbn [length]; lia. Qed.

Lemma len_app : forall l r, len (l ++ r) = len l + len r.
Proof. intros; unfold len; rewrite app_length; lia. Qed.

Lemma len_rev : forall l, len (rev l) = len l.
Proof. intros; unfold len; rewrite rev_length; lia. Qed.

Lemma len_0 : forall l, len l = 0 -> l = [].
Proof. intros [|x l]; [reflexivity|]; unfold len; cbn [length]; lia. Qed.

Lemma len_pos : forall l, l <> [] -> 0 < len l.
Proof. intros [|x l] H; [congruence|]; unfold len; cbn [length]; lia. Qed.

Lemma len_pos_inv : forall l, 0 < len l -> l <> [].
Proof. intros l H E; subst; cbn in H; lia. Qed.

Lemma take_firstn : forall l n, take n l = firstn (N.to_nat n) l.
Proof.
  induction l as [|x l IH]; intros n; cbn.
  - now rewrite firstn_nil.
  - destruct (N.eqb_spec n 0) as [->|H]; [reflexivity|].
    rewrite IH. replace (N.to_nat n) with (S (N.to_nat (N.pred n))) by lia. reflexivity.
Qed.

Lemma drop_skipn : forall l n, drop n l = skipn (N.to_nat n) l.
Proof.
  induction l as [|x l IH]; intros n; cbn.
  - now rewrite skipn_nil.
  - destruct (N.eqb_spec n 0) as [->|H]; [reflexivity|].
    rewrite IH. replace (N.to_nat n) with (S (N.to_nat (N.pred n))) by lia. reflexivity.
Qed.

Lemma get_nth : forall l n, get n l = nth_error l (N.to_nat n).
Proof.
  induction l as [|x l IH]; intros n; cbn.
  - destruct (N.to_nat n); reflexivity.
  - destruct (N.eqb_spec n 0) as [->|H]; [reflexivity|].
    rewrite IH. replace (N.to_nat n) with (S (N.to_nat (N.pred n))) by lia. reflexivity.
Qed.

Lemma len_take : forall n l, len (take n l) = N.min n (len l).
Proof. intros; rewrite take_firstn; unfold len; rewrite firstn_length; lia. Qed.

Lemma len_drop : forall n l, len (drop n l) = len l - n.
Proof. intros; rewrite drop_skipn; unfold len; rewrite skipn_length; lia. Qed.

Lemma take_drop : forall n l, take n l ++ drop n l = l.
Proof. intros; rewrite take_firstn, drop_skipn; apply firstn_skipn. Qed.

Lemma take_0 : forall l, take 0 l = [].
Proof. intros; rewrite take_firstn; reflexivity. Qed.

Lemma drop_0 : forall l, drop 0 l = l.
Proof. intros; rewrite drop_skipn; reflexivity. Qed.

Lemma take_all : forall n l, len l <= n -> take n l = l.
Proof. intros n l H; rewrite take_firstn; apply firstn_all2; unfold len in H; lia. Qed.

Lemma drop_all : forall n l, len l <= n -> drop n l = [].
Proof. intros n l H; rewrite drop_skipn; apply skipn_all2; unfold len in H; lia. Qed.

Lemma take_nil : forall n, take n (@nil A) = [].
Proof. reflexivity. Qed.

Lemma drop_nil : forall n, drop n (@nil A) = [].
Proof. reflexivity. Qed.

Lemma skipn_skipn' : forall (m n : nat) l, skipn m (skipn n l) = skipn (n + m) l.
Proof.
  intros m n; revert m; induction n as [|n IH]; intros m l; [reflexivity|].
  destruct l as [|x l]; cbn; [apply skipn_nil | apply IH].
Qed.

Lemma drop_drop : forall m n l, drop m (drop n l) = drop (n + m) l.
Proof. intros; rewrite !drop_skipn, skipn_skipn'; f_equal; lia. Qed.

Lemma take_app : forall n l r, take n (l ++ r) = take n l ++ take (n - len l) r.
Proof.
  intros; rewrite !take_firstn, firstn_app; unfold len; do 2 f_equal; lia.
Qed.

Lemma drop_app : forall n l r, drop n (l ++ r) = drop n l ++ drop (n - len l) r.
Proof.
  intros; rewrite !drop_skipn, skipn_app; unfold len; do 2 f_equal; lia.
Qed.

Lemma take_app_le : forall n l r, n <= len l -> take n (l ++ r) = take n l.
Proof.
  intros; rewrite take_app; replace (n - len l) with 0 by lia.
  now rewrite take_0, app_nil_r.
Qed.

Lemma take_app_exact : forall n l r, n = len l -> take n (l ++ r) = l.
Proof. intros; subst; rewrite take_app_le by lia; apply take_all; lia. Qed.

Lemma drop_app_exact : forall n l r, n = len l -> drop n (l ++ r) = r.
Proof.
  intros; subst; rewrite drop_app, drop_all, N.sub_diag, drop_0 by lia; reflexivity.
Qed.

Lemma drop_app_le : forall n l r, n <= len l -> drop n (l ++ r) = drop n l ++ r.
Proof.
  intros; rewrite drop_app; replace (n - len l) with 0 by lia; now rewrite drop_0.
Qed.

Lemma take_take : forall n m l, take n (take m l) = take (N.min n m) l.
Proof. intros; rewrite !take_firstn, firstn_firstn; f_equal; lia. Qed.

Lemma skipn_firstn_comm' : forall (m n : nat) l,
  skipn m (firstn n l) = firstn (n - m) (skipn m l).
Proof.
  induction m as [|m IH]; intros n l.
  - cbn; f_equal; lia.
  - destruct n as [|n]; [cbn; reflexivity|].
    destruct l as [|x l]; cbn; [now rewrite firstn_nil | apply IH].
Qed.

Lemma drop_take : forall m n l, drop m (take n l) = take (n - m) (drop m l).
Proof.
  intros; rewrite !take_firstn, !drop_skipn, skipn_firstn_comm'.
  f_equal; lia.
Qed.

Lemma take_plus : forall m n l, take (m + n) l = take m l ++ take n (drop m l).
Proof.
  intros. rewrite <- (take_drop m (take (m + n) l)), take_take, drop_take.
  f_equal; f_equal; lia.
Qed.

Lemma drop_eq_nil : forall n l, drop n l = [] -> len l <= n.
Proof. intros n l H; apply (f_equal len) in H; rewrite len_drop, len_nil in H; lia. Qed.

Lemma split_last_snoc : forall l x, split_last (l ++ [x]) = Some (l, x).
Proof. induction l as [|y l IH]; intros x; cbn; [reflexivity|]; now rewrite IH. Qed.

Lemma split_last_none : forall l, split_last l = None -> l = [].
Proof.
  intros l H; destruct (rev l) as [|x t] eqn:E.
  - apply (f_equal (@rev A)) in E; now rewrite rev_involutive in E.
  - apply (f_equal (@rev A)) in E; rewrite rev_involutive in E; cbn in E; subst.
    now rewrite split_last_snoc in H.
Qed.

Lemma split_last_some : forall l h x, split_last l = Some (h, x) -> l = h ++ [x].
Proof.
  intros l h x H; destruct (rev l) as [|y t] eqn:E.
  - apply (f_equal (@rev A)) in E; rewrite rev_involutive in E; cbn in E; subst; discriminate.
  - apply (f_equal (@rev A)) in E; rewrite rev_involutive in E; cbn in E; subst.
    rewrite split_last_snoc in H; congruence.
Qed.

Lemma split_last_rev_cons : forall (x : A) t, split_last (rev (x :: t)) = Some (rev t, x).
Proof. intros; cbn; apply split_last_snoc. Qed.

End Lists.

#[global] Hint Rewrite @len_nil @len_cons @len_app @len_rev @len_take @len_drop : len.

(** [chunks] on an exact multiple. *)
Lemma chunks_aux_S : forall A f k (l : list A),
  chunks_aux (S f) k l = if len l <? k then [] else take k l :: chunks_aux f k (drop k l).
Proof. reflexivity. Qed.

Lemma chunks_aux_fuel : forall A k (f g : nat) (l : list A),
  0 < k -> (length l <= f)%nat -> (length l <= g)%nat -> chunks_aux f k l = chunks_aux g k l.
Proof.
  intros A k f; induction f as [|f IH]; intros g l Hk Hf Hg.
  - destruct l; [|cbn in Hf; lia]. destruct g; [reflexivity|].
    rewrite chunks_aux_S. replace (len (@nil A) <? k) with true; [reflexivity|].
    symmetry; apply N.ltb_lt; rewrite len_nil; lia.
  - rewrite chunks_aux_S. destruct g as [|g].
    + destruct l; [|cbn in Hg; lia]. replace (len (@nil A) <? k) with true; [reflexivity|].
      symmetry; apply N.ltb_lt; rewrite len_nil; lia.
    + rewrite chunks_aux_S. destruct (N.ltb_spec (len l) k) as [H|H]; [reflexivity|].
      f_equal. apply IH; [assumption| |];
        rewrite drop_skipn, skipn_length; unfold len in H; lia.
Qed.

Lemma chunks_short : forall A k (l : list A), len l < k -> chunks k l = [].
Proof.
  intros A k l H; unfold chunks; destruct l as [|x l]; [reflexivity|].
  cbn [length]; rewrite chunks_aux_S. now replace (len (x :: l) <? k) with true
    by (symmetry; apply N.ltb_lt; assumption).
Qed.

Lemma chunks_cons : forall A k (l : list A), 0 < k -> k <= len l ->
  chunks k l = take k l :: chunks k (drop k l).
Proof.
  intros A k l Hk H; unfold chunks. destruct l as [|x l]; [rewrite len_nil in H; lia|].
  cbn [length]; rewrite chunks_aux_S.
  replace (len (x :: l) <? k) with false by (symmetry; apply N.ltb_ge; assumption).
  f_equal. apply chunks_aux_fuel; [assumption| |lia].
  rewrite drop_skipn, skipn_length; unfold len in H; cbn [length] in *; lia.
Qed.

Lemma chunks_app : forall A k (x l : list A), 0 < k -> len x = k ->
  chunks k (x ++ l) = x :: chunks k l.
Proof.
  intros A k x l Hk Hx. rewrite chunks_cons; [|assumption|rewrite len_app; lia].
  now rewrite take_app_exact, drop_app_exact by congruence.
Qed.

Lemma chunks_nil : forall A k, chunks k (@nil A) = [].
Proof. reflexivity. Qed.

Lemma chunks_concat : forall A k (ls : list (list A)), 0 < k ->
  Forall (fun x => len x = k) ls -> chunks k (concat ls) = ls.
Proof.
  intros A k ls Hk H; induction H as [|x ls Hx H IH]; [apply chunks_nil|].
  cbn [concat]; rewrite chunks_app by assumption; now rewrite IH.
Qed.

Lemma N_strong_ind : forall P : N -> Prop,
  (forall n, (forall m, m < n -> P m) -> P n) -> forall n, P n.
Proof.
  intros P H n. assert (G : forall m, m <= n -> P m); [|apply G; lia].
  induction n as [|n IH] using N.peano_ind; intros m Hm.
  - apply H; intros k Hk; lia.
  - apply H; intros k Hk; apply IH; lia.
Qed.

Lemma len_chunks : forall A k (l : list A), 0 < k -> len (chunks k l) = len l / k.
Proof.
  intros A k l Hk.
  remember (len l) as n eqn:En. revert l En.
  induction n as [n IH] using N_strong_ind; intros l En.
  destruct (N.ltb_spec (len l) k) as [H|H].
  - rewrite chunks_short by assumption. rewrite N.div_small by lia. reflexivity.
  - rewrite chunks_cons, len_cons by assumption.
    rewrite (IH (n - k)) by (rewrite ?len_drop; lia).
    replace n with ((n - k) + 1 * k) at 2 by lia. rewrite N.div_add by lia. lia.
Qed.

(** Base 256 digits. *)
Definition bytes (l : list N) : Prop := Forall (fun b => b < 256) l.

Lemma from_le_app : forall l r, from_le (l ++ r) = from_le l + 256 ^ len l * from_le r.
Proof.
  induction l as [|b l IH]; intros r; cbn [from_le app].
  - change (256 ^ len (@nil N)) with 1; lia.
  - rewrite IH, len_cons, N.pow_add_r, N.pow_1_r; lia.
Qed.

Lemma from_le_bound : forall l, bytes l -> from_le l < 256 ^ len l.
Proof.
  induction 1 as [|b l Hb _ IH]; cbn [from_le].
  - change (256 ^ len (@nil N)) with 1; lia.
  - rewrite len_cons, N.pow_add_r, N.pow_1_r. nia.
Qed.

Lemma from_be_bound : forall l, bytes l -> from_be l < 256 ^ len l.
Proof.
  intros l H; unfold from_be; rewrite <- (len_rev l); apply from_le_bound.
  unfold bytes in *; rewrite Forall_forall in *; intros x Hx; apply H; now apply in_rev.
Qed.

Lemma popcount_double : forall n, popcount (2 * n) = popcount n.
Proof. now intros [|p]. Qed.

Lemma popcount_succ_double : forall n, popcount (2 * n + 1) = 1 + popcount n.
Proof. now intros [|p]. Qed.

Lemma popcount_bound : forall b n, n < 2 ^ b -> popcount n <= b.
Proof.
  induction b as [|b IH] using N.peano_ind; intros n H.
  - change (2 ^ 0) with 1 in H; replace n with 0 by lia; cbn; lia.
  - rewrite N.pow_succ_r' in H.
    destruct (N.Even_or_Odd n) as [[m ->]|[m ->]].
    + rewrite popcount_double. specialize (IH m); lia.
    + rewrite popcount_succ_double. specialize (IH m); lia.
Qed.
