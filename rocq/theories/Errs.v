(** Which errors a parser can return, for any buffer whose own errors satisfy [Q]. *)
From Coq Require Import NArith List Bool.
From Verif Require Import Base Types Platform Config Buf Parser.
Import ListNotations.
Open Scope N_scope.

(** Every error of [m] satisfies [Q]. *)
Definition errs {S A : Type} (Q : perror -> Prop) (m : M S A) : Prop :=
  forall p e, fst (m p) = Err e -> Q e.

(** Every error of the buffer satisfies [Q]. *)
Definition buf_errs {S : Type} (Q : perror -> Prop) (PB : parsebuf S) : Prop :=
  (forall s e, fst (pb_chunk PB s) = Err e -> Q e) /\
  (forall s n e, fst (pb_advance PB s n) = Err e -> Q e).

Section Errs.
Context (pl : platform) {S : Type} (PB : parsebuf S) (Q : perror -> Prop) (HB : buf_errs Q PB).

Notation errs := (errs (S := S) Q).

Lemma errs_ret : forall A (a : A), errs (ret a).
Proof. intros A a p e H. discriminate. Qed.

Lemma errs_fail : forall A e, Q e -> errs (@fail S A e).
Proof. intros A e H p e' E. cbn in E. now injection E as <-. Qed.

Lemma errs_panic : forall A, errs (@panic S A).
Proof. intros A p e H. discriminate. Qed.

Lemma errs_bind : forall A B (m : M S A) (k : A -> M S B),
  errs m -> (forall a, errs (k a)) -> errs (bind m k).
Proof.
  intros A B m k H1 H2 p e E. unfold bind in E. specialize (H1 p).
  destruct (m p) as [[a|e'| |] p']; cbn [fst] in *; try discriminate.
  - exact (H2 a p' e E).
  - injection E as <-. now apply H1.
Qed.

Lemma errs_cfg : errs get_cfg.
Proof. intros p e H. discriminate. Qed.

Lemma errs_off : errs get_off.
Proof. intros p e H. discriminate. Qed.

Lemma errs_hint : errs (m_hint PB).
Proof. intros p e H. discriminate. Qed.

Lemma errs_alloc : forall n, errs (m_alloc pl n).
Proof. intros n p e H. unfold m_alloc in H. destruct (isize_max pl <? n); discriminate. Qed.

Lemma errs_chunk : errs (m_chunk PB).
Proof.
  intros p e H. unfold m_chunk in H. destruct (pb_chunk PB (p_buf p)) as [r s] eqn:E.
  apply (proj1 HB (p_buf p)). now rewrite E.
Qed.

Lemma errs_advance : forall n, errs (m_advance PB n).
Proof.
  intros n p e H. unfold m_advance in H. destruct (pb_advance PB (p_buf p) n) as [r s] eqn:E.
  apply (proj2 HB (p_buf p) n). now rewrite E.
Qed.

Lemma errs_if : forall A b (m : M S A), errs m -> errs (parse_if b m).
Proof. intros A [|] m H; [apply errs_bind; [exact H|intros; apply errs_ret]|apply errs_ret]. Qed.

Lemma errs_loop_pos : forall St B (body : St -> M S (St + B)) n x,
  (forall x, errs (body x)) -> errs (loop_pos body n x).
Proof.
  intros St B body n x H. revert x. induction n as [n IH|n IH|]; intros x; cbn [loop_pos].
  - apply errs_bind; [apply H|]. intros [y|b]; [|apply errs_ret].
    apply errs_bind; [apply IH|]. intros [z|b]; [apply IH|apply errs_ret].
  - apply errs_bind; [apply IH|]. intros [y|b]; [apply IH|apply errs_ret].
  - apply H.
Qed.

Lemma errs_loop : forall St B (body : St -> M S (St + B)) x,
  (forall x, errs (body x)) -> errs (loop body x).
Proof.
  intros St B body x H. unfold loop. apply errs_bind; [now apply errs_loop_pos|].
  intros [y|b]; [|apply errs_ret]. intros p e E. discriminate.
Qed.

Lemma errs_to_slice : forall n, errs (parse_to_slice PB n).
Proof.
  intros n. unfold parse_to_slice. apply errs_loop. intros [k d].
  destruct (k =? 0); [apply errs_ret|]. apply errs_bind; [apply errs_chunk|]. intros c. cbv zeta.
  apply errs_bind; [apply errs_advance|]. intros; apply errs_ret.
Qed.

Lemma errs_array : forall n, errs (parse_array PB n).
Proof.
  intros n. unfold parse_array. apply errs_bind; [apply errs_chunk|]. intros c.
  destruct (_ <? _); [apply errs_to_slice|].
  apply errs_bind; [apply errs_advance|]. intros; apply errs_ret.
Qed.

Lemma errs_u64 : errs (parse_u64 pl PB).
Proof.
  unfold parse_u64. apply errs_bind; [apply errs_array|]. intros. apply errs_bind; [apply errs_cfg|].
  intros; apply errs_ret.
Qed.

Lemma errs_bytes_direct : forall n, errs (parse_bytes_direct PB n).
Proof.
  intros n. unfold parse_bytes_direct. apply errs_bind; [apply errs_chunk|].
  intros [d|a d]; [apply errs_ret|]. destruct (_ <? _); [apply errs_ret|].
  apply errs_bind; [apply errs_advance|]. intros; apply errs_ret.
Qed.

Lemma errs_capacity : forall n, errs (safe_capacity_bound pl PB n).
Proof.
  intros n. unfold safe_capacity_bound. destruct (n =? 0); [apply errs_ret|].
  apply errs_bind; [apply errs_hint|]. intros; apply errs_ret.
Qed.

Lemma errs_slice : forall A (E : elem A) n,
  (forall k, Q (custom_error KInvalidRecord k)) -> errs (el_parse E PB) -> errs (parse_slice pl PB E n).
Proof.
  intros A E n Hi He. unfold parse_slice. apply errs_bind.
  - unfold parse_slice_direct. apply errs_bind; [apply errs_cfg|]. intros c.
    destruct (negb _); [apply errs_ret|]. destruct (checked_mul _ _ _); [|apply errs_fail, Hi].
    apply errs_bind; [apply errs_bytes_direct|]. intros [[a d]|]; [|apply errs_ret].
    destruct (_ || _); apply errs_ret.
  - intros [[a l]|]; [apply errs_ret|]. apply errs_bind; [|intros; apply errs_ret].
    unfold parse_repeated. apply errs_bind; [apply errs_capacity|]. intros b.
    apply errs_bind; [apply errs_alloc|]. intros _. apply errs_loop. intros [k v].
    destruct (k =? 0); [apply errs_ret|]. apply errs_bind; [exact He|]. intros; apply errs_ret.
Qed.

End Errs.
