(** What the parsers do on one contiguous slice, exactly: addresses, what is left
    and what is reserved. *)
From Coq Require Import ZArith NArith List Bool Lia.
From Verif Require Import Base BaseFacts Types Platform Config Buf Parser Contract Flat Refine.
From Verif Require Import Records Sample Record RefFrame.
Import ListNotations.
Open Scope N_scope.

(** * Unrolling loops *)

Section Unroll.
Context {S St B : Type} (body : St -> M S (St + B)).

Lemma fuel_3 : exists n, Pos.to_nat loop_fuel = Datatypes.S (Datatypes.S (Datatypes.S n)).
Proof.
  exists (Pos.to_nat loop_fuel - 3)%nat.
  assert (3 <= Pos.to_nat loop_fuel)%nat; [|lia].
  unfold loop_fuel. lia.
Qed.

Lemma loop_1 : forall x p b p', body x p = (Ok (inr b), p') -> loop body x p = (Ok b, p').
Proof.
  intros x p b p' E. destruct fuel_3 as (n & F). unfold loop, bind. rewrite loop_pos_iter, F.
  cbn [iter]. unfold bind at 1. rewrite E. reflexivity.
Qed.
Lemma loop_2 : forall x p y p1 b p', body x p = (Ok (inl y), p1) -> body y p1 = (Ok (inr b), p') ->
  loop body x p = (Ok b, p').
Proof.
  intros x p y p1 b p' E1 E2. destruct fuel_3 as (n & F). unfold loop, bind. rewrite loop_pos_iter, F.
  cbn [iter]. unfold bind at 1. rewrite E1. unfold bind at 1. rewrite E2. reflexivity.
Qed.
Lemma loop_1_err : forall x p e p', body x p = (Err e, p') -> loop body x p = (Err e, p').
Proof.
  intros x p e p' E. destruct fuel_3 as (n & F). unfold loop, bind. rewrite loop_pos_iter, F.
  cbn [iter]. unfold bind at 1. rewrite E. reflexivity.
Qed.
Lemma loop_2_err : forall x p y p1 e p', body x p = (Ok (inl y), p1) -> body y p1 = (Err e, p') ->
  loop body x p = (Err e, p').
Proof.
  intros x p y p1 e p' E1 E2. destruct fuel_3 as (n & F). unfold loop, bind. rewrite loop_pos_iter, F.
  cbn [iter]. unfold bind at 1. rewrite E1. unfold bind at 1. rewrite E2. reflexivity.
Qed.

(** An invariant of the rounds, for loops that end well. *)
Lemma loop_inv : forall (I : parser S -> Prop),
  (forall x p r p', I p -> body x p = (Ok r, p') -> I p') ->
  forall x p b p', I p -> loop body x p = (Ok b, p') -> I p'.
Proof.
  intros I H x p b p' HI.
  assert (G : forall n x p r p', I p -> iter body n x p = (Ok r, p') -> I p').
  { clear x p b p' HI. induction n as [|n IH]; intros x p r p' HI E; cbn [iter] in E.
    - injection E as _ <-. exact HI.
    - unfold bind in E. destruct (body x p) as [[[y|b1]|e| |] p1] eqn:Eb; try discriminate.
      + eapply (IH y p1); [eapply H; eassumption|exact E].
      + injection E as _ <-. eapply H; eassumption. }
  assert (G2 : forall f, (r <- loop_pos body f x ;; match r with inl _ => lift Fuel | inr b => ret b end) p
                         = (Ok b, p') -> I p').
  { intros f E. unfold bind in E. rewrite loop_pos_iter in E.
    destruct (iter body (Pos.to_nat f) x p) as [[[y|b1]|e| |] p1] eqn:Ei; try discriminate.
    injection E as _ <-. eapply G; eassumption. }
  exact (G2 loop_fuel).
Qed.
End Unroll.

(** * Successful runs *)

Definition wp {S A : Type} (m : M S A) (p : parser S) (Q : A -> parser S -> Prop) : Prop :=
  match m p with (Ok x, p') => Q x p' | _ => True end.

Lemma wp_ret : forall S A (a : A) (p : parser S) (Q : A -> parser S -> Prop), Q a p -> wp (ret a) p Q.
Proof. intros. assumption. Qed.
Lemma wp_fail : forall S A e (p : parser S) (Q : A -> parser S -> Prop), wp (fail e) p Q.
Proof. intros. exact I. Qed.
Lemma wp_lift : forall S A (o : out A) (p : parser S) (Q : A -> parser S -> Prop),
  (forall x, o = Ok x -> Q x p) -> wp (lift o) p Q.
Proof. intros S A o p Q H. unfold wp, lift. destruct o; auto. Qed.
Lemma wp_bind : forall S A B (m : M S A) (k : A -> M S B) p Q,
  wp m p (fun x p' => wp (k x) p' Q) -> wp (bind m k) p Q.
Proof.
  intros S A B m k p Q H. unfold wp, bind in *. destruct (m p) as [[x|e| |] p']; try exact I. exact H.
Qed.
Lemma wp_cfg : forall S (p : parser S) (Q : config -> parser S -> Prop), Q (p_cfg p) p -> wp get_cfg p Q.
Proof. intros; assumption. Qed.
Lemma wp_off : forall S (p : parser S) (Q : N -> parser S -> Prop), Q (p_off p) p -> wp get_off p Q.
Proof. intros; assumption. Qed.
Lemma wp_if : forall S A b (m : M S A) p Q,
  (b = true -> wp m p (fun x p' => Q (Some x) p')) -> (b = false -> Q None p) -> wp (parse_if b m) p Q.
Proof.
  intros S A [] m p Q H1 H2; unfold parse_if; [|now apply wp_ret, H2].
  apply wp_bind. specialize (H1 eq_refl). unfold wp in *. destruct (m p) as [[x|e| |] p']; auto.
Qed.
Lemma wp_mono : forall S A (m : M S A) p (Q Q' : A -> parser S -> Prop),
  wp m p Q -> (forall x p', Q x p' -> Q' x p') -> wp m p Q'.
Proof. intros S A m p Q Q' H HQ. unfold wp in *. destruct (m p) as [[x|e| |] p']; auto. Qed.

Section On.
Context (pl : platform) (c : config) (a : N) (d : list N) (off : N).

(** The parser after [k] bytes. *)
Definition at_ (k : N) (log : list N) : parser slice :=
  mkParser c (mkSlice (a + k) (drop k d)) (off + k) log.

Lemma at_advance : forall k n log, k + n <= len d -> m_advance slice_buf n (at_ k log) = (Ok tt, at_ (k + n) log).
Proof.
  intros k n log H. unfold m_advance, at_. cbn [pb_advance slice_buf p_buf p_cfg p_off p_log].
  unfold slice_advance. cbn [sl_data sl_addr].
  replace (len (drop k d) <? n) with false by (symmetry; apply N.ltb_ge; rewrite len_drop; lia).
  rewrite drop_drop, !N.add_assoc. reflexivity.
Qed.

Lemma at_chunk : forall k log,
  m_chunk slice_buf (at_ k log) =
  (if k <? len d then Ok (External (a + k) (drop k d)) else Err eof_error, at_ k log).
Proof.
  intros k log. unfold m_chunk, at_. cbn [pb_chunk slice_buf p_buf p_cfg p_off p_log].
  unfold slice_chunk. cbn [sl_data sl_addr].
  destruct (drop k d) as [|x t] eqn:E.
  - apply (f_equal len) in E. rewrite len_drop in E. cbn in E.
    replace (k <? len d) with false by (symmetry; apply N.ltb_ge; lia). reflexivity.
  - replace (k <? len d) with true; [reflexivity|]. symmetry. apply N.ltb_lt.
    apply (f_equal len) in E. rewrite len_drop, len_cons in E. lia.
Qed.

Lemma wp_hint : forall k log (Q : _ -> parser slice -> Prop),
  Q (Some (len d - k)) (at_ k log) -> wp (m_hint slice_buf) (at_ k log) Q.
Proof. intros k log Q H. unfold wp, m_hint. cbn. now rewrite len_drop. Qed.
Lemma wp_alloc : forall k n log (Q : _ -> parser slice -> Prop),
  Q tt (at_ k (n :: log)) -> wp (m_alloc pl n) (at_ k log) Q.
Proof. intros k n log Q H. unfold wp, m_alloc. destruct (_ <? _); [exact I|exact H]. Qed.

Lemma wp_array : forall k n log (Q : _ -> parser slice -> Prop),
  (k + n <= len d -> k < len d -> Q (take n (drop k d)) (at_ (k + n) log)) ->
  wp (parse_array slice_buf n) (at_ k log) Q.
Proof.
  intros k n log Q H. unfold parse_array. apply wp_bind. unfold wp. rewrite at_chunk.
  destruct (N.ltb_spec k (len d)) as [Hk|Hk]; [|exact I]. cbn [chunk_data]. rewrite len_drop.
  destruct (N.ltb_spec (len d - k) n) as [Hn|Hn].
  - unfold parse_to_slice. erewrite loop_2_err; [exact I| |].
    + cbn beta iota. replace (n =? 0) with false by (symmetry; apply N.eqb_neq; lia).
      unfold bind at 1. rewrite at_chunk. replace (k <? len d) with true by (symmetry; now apply N.ltb_lt).
      cbn [chunk_data]. unfold bind. rewrite len_drop, N.min_l by lia.
      rewrite at_advance by lia. reflexivity.
    + cbn beta iota. replace (n - (len d - k) =? 0) with false by (symmetry; apply N.eqb_neq; lia).
      unfold bind at 1. rewrite at_chunk. replace (k + (len d - k) <? len d) with false by (symmetry; apply N.ltb_ge; lia).
      reflexivity.
  - unfold bind. rewrite at_advance by lia. cbn. apply H; lia.
Qed.

Lemma wp_u8 : forall k log (Q : _ -> parser slice -> Prop), (k + 1 <= len d -> forall x, Q x (at_ (k + 1) log)) ->
  wp (parse_u8 slice_buf) (at_ k log) Q.
Proof. intros k log Q H. apply wp_bind, wp_array. intros H1 _. apply wp_ret. now apply H. Qed.
Lemma wp_u16 : forall k log (Q : _ -> parser slice -> Prop),
  (k + 2 <= len d -> Q (convert pl (c_endian c) (take 2 (drop k d))) (at_ (k + 2) log)) ->
  wp (parse_u16 pl slice_buf) (at_ k log) Q.
Proof.
  intros k log Q H. apply wp_bind, wp_array. intros H1 _. apply wp_bind, wp_cfg, wp_ret. cbn. now apply H.
Qed.
Lemma wp_u32 : forall k log (Q : _ -> parser slice -> Prop),
  (k + 4 <= len d -> Q (convert pl (c_endian c) (take 4 (drop k d))) (at_ (k + 4) log)) ->
  wp (parse_u32 pl slice_buf) (at_ k log) Q.
Proof.
  intros k log Q H. apply wp_bind, wp_array. intros H1 _. apply wp_bind, wp_cfg, wp_ret. cbn. now apply H.
Qed.
Lemma wp_u64 : forall k log (Q : _ -> parser slice -> Prop),
  (k + 8 <= len d -> Q (convert pl (c_endian c) (take 8 (drop k d))) (at_ (k + 8) log)) ->
  wp (parse_u64 pl slice_buf) (at_ k log) Q.
Proof.
  intros k log Q H. apply wp_bind, wp_array. intros H1 _. apply wp_bind, wp_cfg, wp_ret. cbn. now apply H.
Qed.

Lemma wp_bytes_direct : forall k n log (Q : _ -> parser slice -> Prop),
  (k < len d -> k + n <= len d -> Q (Some (a + k, take n (drop k d))) (at_ (k + n) log)) ->
  (k < len d -> len d < k + n -> Q None (at_ k log)) ->
  wp (parse_bytes_direct slice_buf n) (at_ k log) Q.
Proof.
  intros k n log Q H1 H2. unfold parse_bytes_direct. apply wp_bind. unfold wp. rewrite at_chunk.
  destruct (N.ltb_spec k (len d)) as [Hk|Hk]; [|exact I]. rewrite len_drop.
  destruct (N.ltb_spec (len d - k) n) as [Hn|Hn].
  - apply H2; lia.
  - unfold bind. rewrite at_advance by lia. apply H1; lia.
Qed.

(** Bytes are borrowed from the slice, and nothing is reserved. *)
Lemma wp_bytes : forall k n log (Q : _ -> parser slice -> Prop),
  (k < len d -> k + n <= len d -> Q (Borrowed (a + k) (take n (drop k d))) (at_ (k + n) log)) ->
  wp (parse_bytes pl slice_buf n) (at_ k log) Q.
Proof.
  intros k n log Q H. unfold parse_bytes. apply wp_bind, wp_bytes_direct.
  - intros H1 H2. now apply wp_ret, H.
  - intros H1 H2. apply wp_bind, wp_hint.
    replace (n <=? len d - k) with false by (symmetry; apply N.leb_gt; lia).
    unfold parse_bytes_slow. apply wp_bind, wp_bind. unfold safe_capacity_bound. cbn [N.eqb].
    apply wp_bind, wp_hint, wp_ret, wp_bind, wp_alloc. unfold wp. erewrite loop_2_err; [exact I| |].
    + cbn beta iota. replace (n =? 0) with false by (symmetry; apply N.eqb_neq; lia).
      unfold bind at 1. rewrite at_chunk. replace (k <? len d) with true by (symmetry; now apply N.ltb_lt).
      unfold chunk_truncate. cbn [chunk_data]. rewrite len_drop.
      replace (len d - k <=? n) with true by (symmetry; apply N.leb_le; lia). cbn [chunk_data].
      unfold bind. rewrite len_drop, at_advance by lia. reflexivity.
    + cbn beta iota. replace (n - (len d - k) =? 0) with false by (symmetry; apply N.eqb_neq; lia).
      unfold bind at 1. rewrite at_chunk.
      replace (k + (len d - k) <? len d) with false by (symmetry; apply N.ltb_ge; lia). reflexivity.
Qed.

Lemma wp_rest : forall k log (Q : _ -> parser slice -> Prop),
  (k < len d -> Q (Borrowed (a + k) (drop k d)) (at_ (len d) log)) ->
  wp (parse_rest slice_buf) (at_ k log) Q.
Proof.
  intros k log Q H. unfold parse_rest. apply wp_bind. unfold wp. rewrite at_chunk.
  destruct (N.ltb_spec k (len d)) as [Hk|Hk]; [|exact I]. cbn [chunk_to_cow cow_list].
  unfold bind. rewrite len_drop, at_advance by lia. replace (k + (len d - k)) with (len d) by lia.
  erewrite loop_1; [now apply H|]. cbn beta. rewrite at_chunk, N.ltb_irrefl. reflexivity.
Qed.

Lemma wp_string : forall k log (Q : _ -> parser slice -> Prop),
  (k < len d -> Q (Borrowed (a + k) (strip (drop k d))) (at_ (len d) log)) ->
  wp (parse_rest_trim_nul slice_buf) (at_ k log) Q.
Proof.
  intros k log Q H. unfold parse_rest_trim_nul. apply wp_bind, wp_rest. intros Hk. cbn [cow_list].
  rewrite trim_strip. apply wp_lift. intros x E. cbn [cow_truncate] in E.
  pose proof (strip_prefix (drop k d)) as Hp.
  destruct (_ <? _) eqn:El.
  - apply N.ltb_lt in El. rewrite Hp, len_take in El. lia.
  - injection E as <-. rewrite <- Hp. now apply H.
Qed.

(** Arrays: somewhere further on. *)
Definition further (k : N) (p : parser slice) : Prop :=
  exists k' log', k <= k' <= len d /\ p = at_ k' log'.

Lemma wp_slice : forall A (E : elem A) k n log (Q : _ -> parser slice -> Prop),
  k <= len d ->
  (forall k1 log1, k <= k1 <= len d ->
     wp (el_parse E slice_buf) (at_ k1 log1) (fun _ p => further k1 p)) ->
  (forall x k' log', k <= k' <= len d -> Q x (at_ k' log')) ->
  wp (parse_slice pl slice_buf E n) (at_ k log) Q.
Proof.
  intros A E k n log Q Hk0 HE HQ.
  assert (Hrep : forall k1, k <= k1 <= len d ->
    wp (l <- parse_repeated pl slice_buf E n ;; ret (Owned l)) (at_ k1 log) Q).
  { intros k1 Hk1. apply wp_bind. unfold parse_repeated. apply wp_bind.
    unfold safe_capacity_bound. destruct (_ =? 0); [apply wp_ret|apply wp_bind, wp_hint, wp_ret].
    all: apply wp_bind, wp_alloc; unfold wp.
    all: match goal with |- match ?m ?p with _ => _ end => destruct (m p) as [[x|e| |] p'] eqn:EL; try exact I end.
    all: apply wp_ret.
    all: assert (G : further k p');
      [ eapply (loop_inv _ (further k)); [| |exact EL];
        [ intros [i vec] q r q' (kq & lq & Hq & ->) Eb; cbn beta iota in Eb;
          destruct (i =? 0); [injection Eb as _ <-; exists kq, lq; auto|];
          unfold bind in Eb; specialize (HE kq lq Hq); unfold wp in HE;
          destruct (el_parse E slice_buf (at_ kq lq)) as [[y|e| |] q2]; try discriminate;
          cbn in Eb; injection Eb as _ <-; destruct HE as (k3 & l3 & H3 & ->);
          exists k3, l3; split; [lia|reflexivity]
        | eexists k1, _; split; [lia|reflexivity] ]
      | destruct G as (k' & log' & Hk' & ->); now apply HQ ]. }
  unfold parse_slice. apply wp_bind. unfold parse_slice_direct. apply wp_bind, wp_cfg. cbn [p_cfg at_].
  destruct (negb _); [apply wp_ret, Hrep; lia|].
  destruct (checked_mul _ _ _) as [m|]; [|apply wp_fail].
  apply wp_bind, wp_bytes_direct.
  - intros H1 H2. destruct (_ || _); apply wp_ret; [apply wp_ret, HQ; lia|apply Hrep; lia].
  - intros H1 H2. apply wp_ret, Hrep; lia.
Qed.

Lemma elem_u64_further : forall k log, k <= len d ->
  wp (el_parse (elem_u64 pl) slice_buf) (at_ k log) (fun _ p => further k p).
Proof. intros k log H. apply wp_u64. intros H1. exists (k + 8), log. split; [lia|reflexivity]. Qed.
Lemma elem_branch_further : forall k log, k <= len d ->
  wp (el_parse (elem_branch pl) slice_buf) (at_ k log) (fun _ p => further k p).
Proof.
  intros k log H. cbn [el_parse elem_branch]. unfold parse_branch_entry.
  apply wp_bind, wp_u64; intros H1. apply wp_bind, wp_u64; intros H2. apply wp_bind, wp_u64; intros H3.
  apply wp_ret. eexists _, log. split; [|reflexivity]. lia.
Qed.

Lemma wp_ignored : forall k n log (Q : _ -> parser slice -> Prop), k <= len d -> (k + n <= len d -> Q tt (at_ (k + n) log)) ->
  wp (parse_bytes_ignored slice_buf n) (at_ k log) Q.
Proof.
  intros k n log Q H0 H. unfold wp, parse_bytes_ignored. destruct (N.eq_dec n 0) as [->|Hn].
  - erewrite loop_1 by reflexivity.
    rewrite N.add_0_r in *. now apply H.
  - destruct (N.ltb_spec k (len d)) as [Hk|Hk].
    2: { erewrite loop_1_err; [exact I|]. cbn beta. replace (n =? 0) with false by (symmetry; now apply N.eqb_neq).
         unfold bind at 1. rewrite at_chunk. replace (k <? len d) with false by (symmetry; now apply N.ltb_ge).
         reflexivity. }
    destruct (N.leb_spec n (len d - k)) as [Hl|Hl].
    + erewrite loop_2.
      2: { cbn beta. replace (n =? 0) with false by (symmetry; now apply N.eqb_neq).
           unfold bind at 1. rewrite at_chunk. replace (k <? len d) with true by (symmetry; now apply N.ltb_lt).
           cbn [chunk_data]. unfold bind. rewrite len_drop, N.min_r, at_advance by lia. reflexivity. }
      2: { cbn beta. rewrite N.sub_diag. reflexivity. }
      apply H. lia.
    + erewrite loop_2_err; [exact I| |].
      { cbn beta. replace (n =? 0) with false by (symmetry; now apply N.eqb_neq).
        unfold bind at 1. rewrite at_chunk. replace (k <? len d) with true by (symmetry; now apply N.ltb_lt).
        cbn [chunk_data]. unfold bind. rewrite len_drop, N.min_l, at_advance by lia. reflexivity. }
      cbn beta. replace (n - (len d - k) =? 0) with false by (symmetry; apply N.eqb_neq; lia).
      unfold bind at 1. rewrite at_chunk. replace (k + (len d - k) <? len d) with false by (symmetry; apply N.ltb_ge; lia).
      reflexivity.
Qed.

(** ** Fields of a SAMPLE *)

Lemma wp_if_u64 : forall b k log (Q : _ -> parser slice -> Prop), k <= len d ->
  (forall x k', k <= k' <= len d -> Q x (at_ k' log)) ->
  wp (parse_if b (parse_u64 pl slice_buf)) (at_ k log) Q.
Proof.
  intros b k log Q Hk H. apply wp_if; intros _; [apply wp_u64; intros H1|]; apply H; lia.
Qed.
Lemma wp_if_u32 : forall b k log (Q : _ -> parser slice -> Prop), k <= len d ->
  (forall x k', k <= k' <= len d -> Q x (at_ k' log)) ->
  wp (parse_if b (parse_u32 pl slice_buf)) (at_ k log) Q.
Proof.
  intros b k log Q Hk H. apply wp_if; intros _; [apply wp_u32; intros H1|]; apply H; lia.
Qed.
Lemma wp_if_cpu : forall b k log (Q : _ -> parser slice -> Prop), k <= len d ->
  (forall x k', k <= k' <= len d -> Q x (at_ k' log)) ->
  wp (parse_if b (x <- parse_u32 pl slice_buf ;; parse_u32 pl slice_buf ;;; ret x)) (at_ k log) Q.
Proof.
  intros b k log Q Hk H. apply wp_if; intros _; [|apply H; lia].
  apply wp_bind, wp_u32; intros H1. apply wp_bind, wp_u32; intros H2. apply wp_ret, H. lia.
Qed.

Lemma wp_read_value : forall k log (Q : _ -> parser slice -> Prop), k <= len d ->
  (forall x k', k <= k' <= len d -> Q x (at_ k' log)) ->
  wp (parse_read_value pl slice_buf) (at_ k log) Q.
Proof.
  intros k log Q Hk H. unfold parse_read_value. apply wp_bind, wp_cfg.
  destruct (contains _ _); [apply wp_fail|]. destruct (negb _); [apply wp_fail|].
  apply wp_bind, wp_u64; intros H1.
  repeat (apply wp_bind, wp_if_u64; [lia|intros ? ? ?]). apply wp_ret, H. lia.
Qed.
Lemma wp_u64s : forall n k log (Q : _ -> parser slice -> Prop), k <= len d ->
  (forall x k' log', k <= k' <= len d -> Q x (at_ k' log')) ->
  wp (parse_slice pl slice_buf (elem_u64 pl) n) (at_ k log) Q.
Proof.
  intros n k log Q Hk H. apply wp_slice; [exact Hk| |exact H]. intros. apply elem_u64_further; lia.
Qed.
Lemma wp_sample_read : forall b k log (Q : _ -> parser slice -> Prop), k <= len d ->
  (forall x k' log', k <= k' <= len d -> (b = false -> log' = log) -> Q x (at_ k' log')) ->
  wp (parse_if b (parse_sample_read pl slice_buf)) (at_ k log) Q.
Proof.
  intros b k log Q Hk H. apply wp_if; intros Hb; [|apply H; auto; lia].
  unfold parse_sample_read. apply wp_bind, wp_cfg. destruct (contains _ _).
  - unfold parse_read_group. apply wp_bind, wp_cfg.
    destruct (negb _); [apply wp_fail|]. destruct (negb _); [apply wp_fail|].
    apply wp_bind, wp_u64; intros H1.
    repeat (apply wp_bind, wp_if_u64; [lia|intros ? ? ?]).
    destruct (checked_mul _ _ _); [|apply wp_fail].
    apply wp_bind, wp_u64s; [lia|]. intros dat kk lg Hkk. apply wp_ret, H; [lia|congruence].
  - apply wp_bind, wp_read_value; [lia|]. intros x k' Hk'. apply wp_ret, H; auto; lia.
Qed.
Lemma wp_callchain : forall b k log (Q : _ -> parser slice -> Prop), k <= len d ->
  (forall x k' log', k <= k' <= len d -> (b = false -> log' = log) -> Q x (at_ k' log')) ->
  wp (parse_if b (parse_callchain pl slice_buf)) (at_ k log) Q.
Proof.
  intros b k log Q Hk H. apply wp_if; intros Hb; [|apply H; auto; lia].
  apply wp_bind, wp_u64; intros H1. apply wp_u64s; [lia|]. intros x k' log' Hk'.
  apply H; [lia|congruence].
Qed.
Lemma wp_registers : forall b mask k log (Q : _ -> parser slice -> Prop), k <= len d ->
  (forall x k' log', k <= k' <= len d -> (b = false -> log' = log) -> Q x (at_ k' log')) ->
  wp (parse_if b (parse_registers pl slice_buf mask)) (at_ k log) Q.
Proof.
  intros b mask k log Q Hk H. apply wp_if; intros Hb; [|apply H; auto; lia].
  apply wp_bind, wp_u64; intros H1. apply wp_bind, wp_u64s; [lia|]. intros x k' log' Hk'.
  apply wp_ret, H; [lia|congruence].
Qed.
Lemma wp_lbr : forall b hw k log (Q : _ -> parser slice -> Prop), k <= len d ->
  (forall x k' log', k <= k' <= len d -> (b = false -> log' = log) -> Q x (at_ k' log')) ->
  wp (parse_if b (parse_lbr pl slice_buf hw)) (at_ k log) Q.
Proof.
  intros b hw k log Q Hk H. apply wp_if; intros Hb; [|apply H; auto; lia].
  unfold parse_lbr. apply wp_bind, wp_u64; intros H1. cbv zeta.
  apply wp_bind, wp_if_u64; [lia|]. intros h k1 Hk1.
  apply wp_bind, wp_slice; [lia|intros; apply elem_branch_further; lia|]. intros x k' log' Hk'.
  apply wp_ret, H; [lia|congruence].
Qed.

(** [n] bytes at [k], borrowed from the slice; the number [n] is in the [w] bytes
    before. *)
Definition counted (w k n : N) (x : cow N) : Prop :=
  w <= k /\ k + n <= len d /\
  n = as_usize pl (from_order (order_of pl (c_endian c)) (take w (drop (k - w) d))) /\
  x = Borrowed (a + k) (take n (drop k d)).

Lemma wp_raw : forall b k log (Q : _ -> parser slice -> Prop), k <= len d ->
  (forall x k', k <= k' <= len d ->
     (forall y, x = Some y -> exists n, counted 4 (k + 4) n y /\ k + 4 + n <= k') -> Q x (at_ k' log)) ->
  wp (parse_if b (parse_raw pl slice_buf)) (at_ k log) Q.
Proof.
  intros b k log Q Hk H. apply wp_if; intros Hb; [|apply H; [lia|discriminate]].
  unfold parse_raw, parse_padded. cbn [N.eqb]. apply wp_bind, wp_off. apply wp_bind, wp_bind, wp_u32.
  intros H1. apply wp_bytes. intros H2 H3. set (n := as_usize pl _) in *.
  apply wp_bind, wp_off. apply wp_bind.
  assert (G : forall k', k + 4 + n <= k' <= len d ->
    Q (Some (Borrowed (a + (k + 4)) (take n (drop (k + 4) d)))) (at_ k' log)).
  { intros k' Hk'. apply H; [lia|]. intros y E. injection E as <-. exists n. split; [|lia].
    split; [lia|]. split; [exact H3|]. split; [|reflexivity].
    replace (k + 4 - 4) with k by lia. unfold n. now rewrite convert_order. }
  destruct (_ =? 0).
  - apply wp_ret, wp_ret, G. lia.
  - apply wp_ignored; [lia|]. intros H4. apply wp_ret, G. lia.
Qed.

Lemma wp_stack : forall b k log (Q : _ -> parser slice -> Prop), k <= len d ->
  (forall x k', k <= k' <= len d ->
     (forall y, x = Some y -> exists n z j, counted 8 (k + 8) n z /\ k + 8 + n <= k' /\ j <= n /\
        y = Borrowed (a + (k + 8)) (take j (drop (k + 8) d)) /\
        j = (if n =? 0 then 0 else
             as_usize pl (from_order (order_of pl (c_endian c)) (take 8 (drop (k + 8 + n) d)))) /\
        (n <> 0 -> k + 8 + n + 8 <= len d)) ->
     Q x (at_ k' log)) ->
  wp (parse_if b (parse_stack_user pl slice_buf)) (at_ k log) Q.
Proof.
  intros b k log Q Hk H. apply wp_if; intros Hb; [|apply H; [lia|discriminate]].
  unfold parse_stack_user. apply wp_bind, wp_u64; intros H1. cbv zeta.
  apply wp_bind, wp_bytes. intros H2 H3. set (n := as_usize pl _) in *.
  set (z := Borrowed (a + (k + 8)) (take n (drop (k + 8) d))).
  assert (Hz : counted 8 (k + 8) n z).
  { split; [lia|]. split; [exact H3|]. split; [|reflexivity].
    replace (k + 8 - 8) with k by lia. unfold n. now rewrite convert_order. }
  assert (Lz : len (take n (drop (k + 8) d)) = n) by (rewrite len_take, len_drop; lia).
  assert (G : forall k' j, k + 8 + n <= k' <= len d ->
    j = (if n =? 0 then 0 else
             as_usize pl (from_order (order_of pl (c_endian c)) (take 8 (drop (k + 8 + n) d)))) ->
    (n <> 0 -> k + 8 + n + 8 <= len d) ->
    wp (if len (cow_list z) <? j then fail (custom_error KInvalidRecord MsgDynSize)
        else lift (stack_truncate z j)) (at_ k' log) (fun x p' => Q (Some x) p')).
  { intros k' j Hk' Ej En. cbn [cow_list z]. rewrite Lz. destruct (N.ltb_spec n j); [apply wp_fail|].
    apply wp_lift. intros x E. unfold stack_truncate, z in E. rewrite Lz in E.
    replace (n <? j) with false in E by (symmetry; apply N.ltb_ge; lia). injection E as <-.
    apply H; [lia|]. intros y E. injection E as <-. exists n, z, j. split; [exact Hz|].
    split; [lia|]. split; [lia|]. split; [|split; [exact Ej|exact En]]. rewrite take_take, N.min_l by lia. reflexivity. }
  apply wp_bind. destruct (N.eqb_spec n 0) as [E0|E0].
  - apply wp_ret. apply G; [lia|reflexivity|contradiction].
  - apply wp_bind, wp_u64; intros H4. apply wp_ret. apply G; [lia|now rewrite convert_order|lia].
Qed.

Lemma wp_aux : forall b k log (Q : _ -> parser slice -> Prop), k <= len d ->
  (forall x k', k <= k' <= len d ->
     (forall y, x = Some y -> exists n, counted 8 (k + 8) n y /\ k' = k + 8 + n) -> Q x (at_ k' log)) ->
  wp (parse_if b (parse_sample_aux pl slice_buf)) (at_ k log) Q.
Proof.
  intros b k log Q Hk H. apply wp_if; intros Hb; [|apply H; [lia|discriminate]].
  unfold parse_sample_aux. apply wp_bind, wp_u64; intros H1. apply wp_bytes. intros H2 H3.
  set (n := as_usize pl _) in *.
  apply H; [lia|]. intros y E. injection E as <-. exists n. split; [|reflexivity].
  split; [lia|]. split; [exact H3|]. split; [|reflexivity].
  replace (k + 8 - 8) with k by lia. unfold n. now rewrite convert_order.
Qed.

(** Where the byte fields of a SAMPLE are: RAW, then the stack, then AUX. *)
Definition sample_located (s : sample cow) (k' : N) : Prop :=
  (forall y, s_raw s = Some y -> exists k n, counted 4 k n y) /\
  (forall y, s_stack_user s = Some y -> exists k n z j, counted 8 k n z /\ j <= n /\
      y = Borrowed (a + k) (take j (drop k d)) /\
      (forall r, s_raw s = Some r -> exists kr nr, counted 4 kr nr r /\ kr + nr + 8 <= k) /\
      j = (if n =? 0 then 0 else
           as_usize pl (from_order (order_of pl (c_endian c)) (take 8 (drop (k + n) d)))) /\
      (n <> 0 -> k + n + 8 <= len d)) /\
  (forall y, s_aux s = Some y -> exists k n, counted 8 k n y /\ k' = k + n).

Lemma wp_sample : forall k log (Q : _ -> parser slice -> Prop), k <= len d ->
  (forall x k' log', k <= k' <= len d -> sample_located x k' ->
     (let sty := sample_type c in
      contains sty SF_READ || contains sty SF_CALLCHAIN || contains sty SF_BRANCH_STACK ||
      contains sty SF_REGS_USER || contains sty SF_REGS_INTR = false -> log' = log) ->
     Q x (at_ k' log')) ->
  wp (parse_sample pl slice_buf) (at_ k log) Q.
Proof.
  intros k log Q Hk H. unfold parse_sample. apply wp_bind, wp_cfg. cbn [p_cfg at_]. fold (at_ k log).
  cbv zeta in *. set (sty := sample_type c) in *.
  repeat first [ apply wp_bind, wp_if_u64; [lia|intros ? ? ?]
               | apply wp_bind, wp_if_u32; [lia|intros ? ? ?]
               | apply wp_bind, wp_if_cpu; [lia|intros ? ? ?] ].
  apply wp_bind, wp_sample_read; [lia|]. intros values kv lv Hv Lv.
  apply wp_bind, wp_callchain; [lia|]. intros chain kc lc Hc Lc.
  apply wp_bind, wp_raw; [lia|]. intros raw kr Hr Hraw.
  apply wp_bind, wp_lbr; [lia|]. intros lbr kl ll Hl Ll.
  apply wp_bind, wp_registers; [lia|]. intros ru ku lu Hu Lu.
  apply wp_bind, wp_stack; [lia|]. intros stack ks Hs Hstack.
  repeat (apply wp_bind, wp_if_u64; [lia|intros ? ? ?]).
  apply wp_bind, wp_registers; [lia|]. intros ri ki li Hi Li.
  repeat (apply wp_bind, wp_if_u64; [lia|intros ? ? ?]).
  apply wp_bind, wp_aux; [lia|]. intros aux ka Ha Haux.
  apply wp_ret, H; [lia| |].
  - split; [|split]; cbn [s_raw s_stack_user s_aux].
    + intros y E. destruct (Hraw y E) as (n & Hn & _). eauto.
    + intros y E. destruct (Hstack y E) as (n & z & j & Hz & Hk' & Hj & Ey & Ej & En).
      exists (ku + 8), n, z, j. split; [exact Hz|]. split; [exact Hj|]. split; [exact Ey|].
      split; [|split; [exact Ej|exact En]]. intros r Er. destruct (Hraw r Er) as (nr & Hn & Hle).
      eexists _, nr. split; [exact Hn|]. lia.
    + intros y E. destruct (Haux y E) as (n & Hn & ->). eauto.
  - intros Hf. rewrite !orb_false_iff in Hf. destruct Hf as ((((F1 & F2) & F3) & F4) & F5).
    rewrite (Li F5), (Lu F4), (Ll F3), (Lc F2), (Lv F1). reflexivity.
Qed.

(** ** Bodies of records *)

(** Where the byte fields of a record body in [d] are. *)
Definition located (b : body cow) : Prop :=
  let o := order_of pl (c_endian c) in
  match b with
  | BMmap r => 32 < len d /\ mm_filename r = Borrowed (a + 32) (strip (drop 32 d))
  | BMmap2 r => 64 < len d /\ m2_filename r = Borrowed (a + 64) (strip (drop 64 d))
  | BComm r => 8 < len d /\ cm_comm r = Borrowed (a + 8) (strip (drop 8 d))
  | BKsymbol r => 16 < len d /\ ks_name r = Borrowed (a + 16) (strip (drop 16 d))
  | BCgroup r => 8 < len d /\ cg_path r = Borrowed (a + 8) (strip (drop 8 d))
  | BTextPoke r =>
      let ol := from_order o (take 2 (drop 8 d)) in
      let nl := from_order o (take 2 (drop 10 d)) in
      12 + ol + nl <= len d /\
      tp_old r = Borrowed (a + 12) (take ol (drop 12 d)) /\
      tp_new r = Borrowed (a + 12 + ol) (take nl (drop (12 + ol) d))
  | BUnknown x => x = Borrowed a d
  | BSample s => exists k, k <= len d /\ sample_located s k
  | _ => True
  end.

(** No arrays in a body of type [t]. *)
Definition no_array_types (t : N) : Prop :=
  let sty := sample_type c in
  t <> 16 /\
  (t = 9 -> contains sty SF_READ || contains sty SF_CALLCHAIN || contains sty SF_BRANCH_STACK ||
            contains sty SF_REGS_USER || contains sty SF_REGS_INTR = false).

Lemma wp_ns : forall n k log (Q : _ -> parser slice -> Prop), k <= len d ->
  (forall x k' log', k <= k' <= len d -> Q x (at_ k' log')) ->
  wp (parse_slice pl slice_buf (elem_ns pl) n) (at_ k log) Q.
Proof.
  intros n k log Q Hk H. apply wp_slice; [exact Hk| |exact H]. intros k1 log1 Hk1.
  cbn [el_parse elem_ns]. unfold parse_ns_entry.
  apply wp_bind, wp_u64; intros H1. apply wp_bind, wp_u64; intros H2.
  apply wp_ret. eexists _, log1. split; [|reflexivity]. lia.
Qed.

Ltac fields :=
  repeat first [ apply wp_bind, wp_u64; intros _ | apply wp_bind, wp_u32; intros _
               | apply wp_bind, wp_u16; intros _ | apply wp_bind, wp_u8; intros _ ?
               | apply wp_bind, wp_array; intros _ _ | apply wp_bind, wp_cfg ].

Lemma wp_body : forall t log,
  wp (parse_body pl slice_buf t) (at_ 0 log)
     (fun b p' => located b /\ (no_array_types t -> p_log p' = log)).
Proof.
  intros t log. unfold parse_body.
  repeat match goal with
  | |- wp (if t =? ?k then _ else _) _ _ => destruct (N.eqb_spec t k)
  end; apply wp_bind.
  all: try (unfold parse_lost, parse_exit, parse_throttle, parse_aux, parse_itrace_start,
    parse_lost_samples, parse_bpf_event, parse_aux_output_hw_id; fields; apply wp_ret, wp_ret;
    split; [exact I|reflexivity]).
  - unfold parse_mmap. fields. apply wp_bind, wp_string. intros Hk.
    apply wp_ret, wp_ret. split; [split; [exact Hk|reflexivity]|reflexivity].
  - unfold parse_comm. fields. apply wp_bind, wp_string. intros Hk.
    apply wp_ret, wp_ret. split; [split; [exact Hk|reflexivity]|reflexivity].
  - unfold parse_read. apply wp_bind, wp_u32; intros H1. apply wp_bind, wp_u32; intros H2.
    apply wp_bind, wp_read_value; [lia|]. intros x k' Hk'.
    apply wp_ret, wp_ret. split; [exact I|reflexivity].
  - apply wp_sample; [lia|]. intros x k' log' Hk' Hx Hl. apply wp_ret. split.
    + exists k'. split; [lia|exact Hx].
    + intros [_ H]. now apply Hl, H.
  - unfold parse_mmap2. fields. apply wp_bind. unfold parse_mmap_detail. apply wp_bind, wp_cfg.
    destruct (negb _).
    + fields. destruct (20 <? _); [apply wp_fail|]. apply wp_ret. cbn beta. fields.
      apply wp_bind, wp_string. intros Hk. apply wp_ret, wp_ret.
      split; [split; [exact Hk|reflexivity]|reflexivity].
    + fields.
      apply wp_bind, wp_string. intros Hk. apply wp_ret, wp_ret.
      split; [split; [exact Hk|reflexivity]|reflexivity].
  - unfold parse_switch_cpu_wide. fields. destruct (negb _); apply wp_ret, wp_ret; split; auto; exact I.
  - unfold parse_namespaces. apply wp_bind, wp_u32; intros H1. apply wp_bind, wp_u32; intros H2.
    apply wp_bind, wp_u64; intros H3. apply wp_bind, wp_ns; [lia|]. intros x k' log' Hk'.
    apply wp_ret, wp_ret. split; [exact I|]. intros [H _]. contradiction.
  - unfold parse_ksymbol. fields. apply wp_bind, wp_string. intros Hk.
    apply wp_ret, wp_ret. split; [split; [exact Hk|reflexivity]|reflexivity].
  - unfold parse_cgroup. fields. apply wp_bind, wp_string. intros Hk.
    apply wp_ret, wp_ret. split; [split; [exact Hk|reflexivity]|reflexivity].
  - unfold parse_text_poke. apply wp_bind, wp_u64; intros _. apply wp_bind, wp_u16; intros _.
    apply wp_bind, wp_u16; intros _. cbv zeta. rewrite !convert_order. cbn [N.add Pos.add Pos.succ].
    set (o := order_of pl (c_endian c)). set (ol := from_order o (take 2 (drop 8 d))).
    set (nl := from_order o (take 2 (drop 10 d))).
    apply wp_bind, wp_bytes. intros H1 H2.
    assert (Hf : ol + nl <= round_up_mod (ol + nl) 4 8).
    { unfold round_up_mod. cbv zeta. destruct (_ <=? _); lia. }
    set (full := round_up_mod (ol + nl) 4 8) in *. clearbody full.
    assert (Hl : len (take full (drop 12 d)) = full) by (rewrite len_take, len_drop; lia).
    apply wp_bind, wp_lift. intros hs E. cbn [cow_split_at] in E. rewrite Hl in E.
    replace (full <? ol) with false in E by (symmetry; apply N.ltb_ge; lia). injection E as <-. cbn [fst snd].
    apply wp_bind, wp_lift. intros nw E. cbn [cow_truncate] in E. rewrite len_drop, Hl in E.
    replace (full - ol <? nl) with false in E by (symmetry; apply N.ltb_ge; lia). injection E as <-.
    apply wp_ret, wp_ret. split; [|reflexivity]. unfold located. cbv zeta. fold o. fold ol. fold nl.
    cbn [tp_old tp_new]. split; [lia|]. split.
    + rewrite take_take, N.min_l by lia. reflexivity.
    + clearbody ol nl. rewrite drop_take, take_take, N.min_l, drop_drop by lia.
      f_equal. now destruct ol.
  - apply wp_rest. intros H. apply wp_ret. split; [|reflexivity].
    unfold located. now rewrite drop_0, N.add_0_r.
Qed.

(** ** Headers and sub-parsers *)

Lemma bind_run : forall {S A B} (m : M S A) (k : A -> M S B) p x p',
  m p = (Ok x, p') -> bind m k p = k x p'.
Proof. intros S A B m k p x p' E. unfold bind. now rewrite E. Qed.

Lemma at_array : forall k n log, k < len d -> k + n <= len d ->
  parse_array slice_buf n (at_ k log) = (Ok (take n (drop k d)), at_ (k + n) log).
Proof.
  intros k n log Hk Hn. unfold parse_array, bind at 1. rewrite at_chunk.
  replace (k <? len d) with true by (symmetry; now apply N.ltb_lt). cbn [chunk_data].
  rewrite len_drop. replace (len d - k <? n) with false by (symmetry; apply N.ltb_ge; lia).
  unfold bind. rewrite at_advance by lia. reflexivity.
Qed.

Lemma at_header : forall log, 8 <= len d ->
  let o := order_of pl (c_endian c) in
  parse_header pl slice_buf (at_ 0 log) =
  (Ok (mkHeader (from_order o (take 4 d)) (from_order o (take 2 (drop 4 d)))
                (from_order o (take 2 (drop 6 d)))), at_ 8 log).
Proof.
  intros log H o. unfold parse_header, parse_u32, parse_u16, bind at 1 2. rewrite at_array by lia.
  unfold bind at 1, get_cfg at 1. cbn [ret]. unfold bind at 1 2. rewrite at_array by lia.
  unfold bind at 1, get_cfg at 1. cbn [ret]. unfold bind at 1 2. rewrite at_array by lia.
  unfold bind at 1, get_cfg at 1. cbn [ret p_cfg at_]. rewrite !convert_order, drop_0. reflexivity.
Qed.

(** The cursor over the next [n] bytes. *)
Definition borrowed_cursor (x : N) (l : list N) : cursor :=
  mkCursor (match l with [] => [] | _ => [Borrowed x l] end) 0 (len l).

Lemma at_split : forall k n log, k + n <= len d ->
  split_at slice_buf n (at_ k log) =
  (Ok (new_parser (borrowed_cursor (a + k) (take n (drop k d))) c), at_ (k + n) log).
Proof.
  intros k n log H. unfold split_at, cursor_new.
  match goal with |- context [bind (loop ?f ?i) _] =>
    assert (E : loop f i (at_ k log)
      = (Ok (if n =? 0 then [] else [Borrowed (a + k) (take n (drop k d))]), at_ (k + n) log)) end.
  { destruct (N.eqb_spec n 0) as [->|Hn].
    - apply loop_1. cbn. now rewrite N.add_0_r.
    - assert (Lt : len (take n (drop k d)) = n) by (rewrite len_take, len_drop; lia).
      assert (Et : chunk_truncate (External (a + k) (drop k d)) n = External (a + k) (take n (drop k d))).
      { unfold chunk_truncate. cbn [chunk_data]. rewrite len_drop.
        destruct (N.leb_spec (len d - k) n); [|reflexivity]. rewrite take_all by (rewrite len_drop; lia). reflexivity. }
      eapply loop_2.
      + cbn beta iota. replace (n =? 0) with false by (symmetry; now apply N.eqb_neq).
        unfold bind at 1. rewrite at_chunk. replace (k <? len d) with true by (symmetry; apply N.ltb_lt; lia).
        cbv zeta. rewrite Et. cbn [chunk_data chunk_to_cow]. rewrite Lt.
        unfold bind. rewrite at_advance by lia. cbn [ret].
        replace (0 <? n) with true by (symmetry; apply N.ltb_lt; lia). cbn [app]. reflexivity.
      + cbn beta iota. rewrite N.sub_diag. reflexivity. }
  rewrite (bind_run _ _ _ _ _ (bind_run _ _ _ _ _ E)). unfold bind, get_cfg, ret. cbn [p_cfg at_].
  unfold borrowed_cursor. destruct (N.eqb_spec n 0) as [->|Hn].
  - rewrite take_0. reflexivity.
  - assert (Lt : len (take n (drop k d)) = n) by (rewrite len_take, len_drop; lia).
    destruct (take n (drop k d)) as [|x t] eqn:E2; [cbn in Lt; lia|]. rewrite <- E2, Lt at 1.
    rewrite E2. reflexivity.
Qed.

Lemma at_split_err : forall k n log, k <= len d -> len d < k + n ->
  exists p', split_at slice_buf n (at_ k log) = (Err eof_error, p').
Proof.
  intros k n log Hk H. unfold split_at, cursor_new, bind at 1 2.
  destruct (N.ltb_spec k (len d)) as [Hl|Hl].
  - erewrite loop_2_err.
    + eexists. reflexivity.
    + cbn beta iota. replace (n =? 0) with false by (symmetry; apply N.eqb_neq; lia).
      unfold bind at 1. rewrite at_chunk. replace (k <? len d) with true by (symmetry; now apply N.ltb_lt).
      unfold chunk_truncate. cbn [chunk_data]. rewrite len_drop.
      replace (len d - k <=? n) with true by (symmetry; apply N.leb_le; lia). cbn [chunk_data].
      unfold bind. rewrite len_drop, at_advance by lia. reflexivity.
    + cbn beta iota. replace (n - (len d - k) =? 0) with false by (symmetry; apply N.eqb_neq; lia).
      unfold bind at 1. rewrite at_chunk.
      replace (k + (len d - k) <? len d) with false by (symmetry; apply N.ltb_ge; lia). reflexivity.
  - erewrite loop_1_err.
    + eexists. reflexivity.
    + cbn beta iota. replace (n =? 0) with false by (symmetry; apply N.eqb_neq; lia).
      unfold bind at 1. rewrite at_chunk. replace (k <? len d) with false by (symmetry; now apply N.ltb_ge).
      reflexivity.
Qed.
End On.

(** Splitting the cursor of a record. *)
Lemma cursor_split : forall x l c off log n, n <= len l ->
  exists p', split_at cursor_buf n (mkParser c (borrowed_cursor x l) off log) =
    (Ok (new_parser (borrowed_cursor x (take n l)) c), p') /\ p_log p' = log.
Proof.
  intros x l c off log n H. unfold split_at, cursor_new.
  destruct (N.eqb_spec n 0) as [->|Hn].
  - eexists. unfold bind at 1 2. erewrite loop_1 by reflexivity. rewrite take_0. split; reflexivity.
  - destruct l as [|y t]; [cbn in H; lia|]. set (l := y :: t) in *.
    assert (Lt : len (take n l) = n) by (rewrite len_take; lia).
    assert (Et : chunk_truncate (External (x + 0) (drop 0 l)) n = External x (take n l)).
    { rewrite N.add_0_r, drop_0. unfold chunk_truncate. cbn [chunk_data].
      destruct (N.leb_spec (len l) n); [|reflexivity]. now rewrite take_all. }
    unfold bind at 1 2.
    assert (Ec : forall log, m_chunk cursor_buf (mkParser c (borrowed_cursor x l) off log)
                 = (Ok (External (x + 0) (drop 0 l)), mkParser c (borrowed_cursor x l) off log)).
    { intros log0. unfold m_chunk. cbn [pb_chunk cursor_buf p_buf]. unfold cursor_chunk, borrowed_cursor.
      cbn [cu_chunks l cu_offset]. cbn [split_last cow_list]. fold l.
      replace (len l <? 0) with false by (symmetry; apply N.ltb_ge; lia). reflexivity. }
    assert (Ea : exists s, m_advance cursor_buf n (mkParser c (borrowed_cursor x l) off log)
                 = (Ok tt, mkParser c s (off + n) log)).
    { unfold m_advance. cbn [pb_advance cursor_buf p_buf p_cfg p_off p_log]. unfold cursor_advance, borrowed_cursor.
      cbn [cu_chunks l cu_offset cu_len]. fold l.
      replace (len l <? n) with false by (symmetry; apply N.ltb_ge; lia).
      cbn [split_last cow_list]. fold l. rewrite N.add_0_l.
      destruct (N.ltb_spec n (len l)); [eexists; reflexivity|].
      unfold cursor_advance_slow. cbn [cu_chunks cu_offset length cursor_pop split_last cow_list]. fold l.
      replace (n <? len l) with false by (symmetry; apply N.ltb_ge; lia).
      replace (n - len l) with 0 by lia. cbn. eexists; reflexivity. }
    destruct Ea as (s & Ea).
    exists (mkParser c s (off + n) log). split; [|reflexivity]. erewrite loop_2.
    2: { cbn beta iota. replace (n =? 0) with false by (symmetry; now apply N.eqb_neq).
         unfold bind at 1. rewrite Ec. cbv zeta. rewrite Et. cbn [chunk_data chunk_to_cow]. rewrite Lt.
         unfold bind. rewrite Ea. cbn [ret].
         replace (0 <? n) with true by (symmetry; apply N.ltb_lt; lia). cbn [app]. reflexivity. }
    2: { cbn beta iota. rewrite N.sub_diag. reflexivity. }
    cbn [ret]. unfold bind, get_cfg, ret. cbn [p_cfg].
    unfold borrowed_cursor. destruct (take n l) as [|z u] eqn:E2; [cbn in Lt; lia|]. rewrite Lt. reflexivity.
Qed.
