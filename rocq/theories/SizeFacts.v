(** What a parser gives is no larger than the bytes it took, and it reserved no more than
    these, for any implementation of [ParseBuf]. *)
From Coq Require Import NArith List Bool Lia.
From Verif Require Import Base BaseFacts Types Platform Config Buf Parser.
From Verif Require Import Prims Records Sample Record RefFrame Size.
Import ListNotations.
Open Scope N_scope.

Lemma total_app : forall a b, total (a ++ b) = total a + total b.
Proof. induction a as [|n a IH]; intros b; cbn [total app]; [reflexivity|]. rewrite IH. lia. Qed.

Lemma bind_ok : forall S A B (m : M S A) (k : A -> M S B) p b p', bind m k p = (Ok b, p') ->
  exists a p1, m p = (Ok a, p1) /\ k a p1 = (Ok b, p').
Proof.
  intros S A B m k p b p' E. unfold bind in E. destruct (m p) as [[a|e| |] p1]; try discriminate. eauto.
Qed.

Lemma ret_ok : forall S A (a b : A) (p p' : parser S), ret a p = (Ok b, p') -> b = a /\ p' = p.
Proof. intros S A a b p p' E. injection E as <- <-. auto. Qed.

Lemma lift_ok : forall S A (o : out A) b (p p' : parser S), lift o p = (Ok b, p') -> o = Ok b /\ p' = p.
Proof. intros S A o b p p' E. injection E as <- <-. auto. Qed.

(** From [p] to [p'] at least [n] bytes were taken, and no more reserved than taken. *)
Definition fed {S : Type} (p p' : parser S) (n : N) : Prop :=
  p_off p + n <= p_off p' /\ total (p_log p') + p_off p <= total (p_log p) + p_off p'.

Definition Fed {S A : Type} (sz : A -> N) (m : M S A) : Prop :=
  forall p a p', m p = (Ok a, p') -> fed p p' (sz a).

(** The same with nothing reserved. *)
Definition Read {S A : Type} (sz : A -> N) (m : M S A) : Prop :=
  forall p a p', m p = (Ok a, p') -> p_off p + sz a <= p_off p' /\ p_log p' = p_log p.

Lemma Read_Fed : forall S A sz (m : M S A), Read sz m -> Fed sz m.
Proof. intros S A sz m H p a p' E. destruct (H _ _ _ E) as [H1 H2]. unfold fed. rewrite H2. lia. Qed.

(** Loops: [I] is what the loop has so far, with [J] of it kept in the state. *)
Lemma Read_loop : forall S St B (I : St -> N) (sz : B -> N) (body : St -> M S (St + B)),
  (forall x p r p', body x p = (Ok r, p') ->
     p_off p + match r with inl y => I y | inr b => sz b end <= p_off p' + I x /\ p_log p' = p_log p) ->
  forall x p b p', loop body x p = (Ok b, p') -> p_off p + sz b <= p_off p' + I x /\ p_log p' = p_log p.
Proof.
  intros S St B I sz body Hb.
  assert (Hp : forall n x p r p', loop_pos body n x p = (Ok r, p') ->
     p_off p + match r with inl y => I y | inr b => sz b end <= p_off p' + I x /\ p_log p' = p_log p).
  { induction n as [n IH|n IH|]; intros x p r p' E; cbn [loop_pos] in E; [| |now apply Hb].
    - apply bind_ok in E. destruct E as (r1 & p1 & E1 & E). destruct (Hb _ _ _ _ E1) as [H1 L1].
      destruct r1 as [y|b].
      + apply bind_ok in E. destruct E as (r2 & p2 & E2 & E). destruct (IH _ _ _ _ E2) as [H2 L2].
        destruct r2 as [z|b].
        * destruct (IH _ _ _ _ E) as [H3 L3]. split; [lia|congruence].
        * apply ret_ok in E. destruct E as [-> ->]. split; [lia|congruence].
      + apply ret_ok in E. destruct E as [-> ->]. split; [lia|congruence].
    - apply bind_ok in E. destruct E as (r1 & p1 & E1 & E). destruct (IH _ _ _ _ E1) as [H1 L1].
      destruct r1 as [y|b].
      + destruct (IH _ _ _ _ E) as [H2 L2]. split; [lia|congruence].
      + apply ret_ok in E. destruct E as [-> ->]. split; [lia|congruence]. }
  intros x p b p'. unfold loop. generalize loop_fuel. intros n E. apply bind_ok in E. destruct E as (r & p1 & E1 & E).
  destruct (Hp _ _ _ _ _ E1) as [H1 L1]. destruct r as [y|c].
  - apply lift_ok in E. destruct E as [E _]. discriminate.
  - apply ret_ok in E. destruct E as [-> ->]. auto.
Qed.

Lemma Read_from : forall S St B (I : St -> N) (sz : B -> N) (body : St -> M S (St + B)) x,
  I x = 0 ->
  (forall x p r p', body x p = (Ok r, p') ->
     p_off p + match r with inl y => I y | inr b => sz b end <= p_off p' + I x /\ p_log p' = p_log p) ->
  Read sz (loop body x).
Proof.
  intros S St B I sz body x Hx Hb p b p' E. destruct (Read_loop S St B I sz body Hb x p b p' E) as [H L].
  rewrite Hx, N.add_0_r in H. auto.
Qed.

(** A successful run, one step at a time. *)
Ltac un E :=
  lazymatch type of E with
  | bind ?m ?k ?p = (Ok ?b, ?p') =>
      let a := fresh "a" in let q := fresh "q" in let E1 := fresh "E" in
      apply bind_ok in E; destruct E as (a & q & E1 & E); cbv beta in E; un E1; un E
  | (let _ := _ in _) _ = _ => cbv zeta in E; un E
  | ret _ _ = _ => apply ret_ok in E; let E1 := fresh in destruct E as [E E1]; try subst
  | fail _ _ = _ => discriminate E
  | panic _ = _ => discriminate E
  | lift _ _ = _ => apply lift_ok in E; let E1 := fresh in destruct E as [E E1]; try subst
  | get_cfg _ = _ => injection E; clear E; intros; try subst
  | get_off _ = _ => injection E; clear E; intros; try subst
  | _ => idtac
  end.

Section Prims.
Context (pl : platform) {S : Type} (PB : parsebuf S).

Lemma chunk_read : forall p c p', m_chunk PB p = (Ok c, p') -> p_off p' = p_off p /\ p_log p' = p_log p.
Proof. intros p c p' E. unfold m_chunk in E. destruct (pb_chunk PB (p_buf p)). injection E as _ <-. auto. Qed.
Lemma advance_read : forall n p u p', m_advance PB n p = (Ok u, p') ->
  p_off p' = p_off p + n /\ p_log p' = p_log p.
Proof. intros n p u p' E. unfold m_advance in E. destruct (pb_advance PB (p_buf p) n). injection E as _ <-. auto. Qed.
Lemma alloc_fed : forall n (p : parser S) u p', m_alloc pl n p = (Ok u, p') ->
  p_off p' = p_off p /\ p_log p' = n :: p_log p.
Proof. intros n p u p' E. unfold m_alloc in E. destruct (isize_max pl <? n); [discriminate|]. injection E as _ <-. auto. Qed.
Lemma hint_read : forall p u p', m_hint PB p = (Ok u, p') -> p' = p.
Proof. intros p u p' E. injection E. congruence. Qed.
Lemma bound_read : forall n p u p', safe_capacity_bound pl PB n p = (Ok u, p') -> p' = p.
Proof.
  intros n p u p' E. unfold safe_capacity_bound in E. destruct (n =? 0); [apply ret_ok in E; tauto|].
  apply bind_ok in E. destruct E as (a & q & E1 & E). apply hint_read in E1. apply ret_ok in E. destruct E as [_ E]. congruence.
Qed.

(** The bytes asked for are taken, and as many given. *)
Lemma to_slice_read : forall n, Read (fun d => N.max n (len d)) (parse_to_slice PB n).
Proof.
  intros n. apply Read_from with (I := fun s => N.max (n - fst s) (len (snd s))).
  - cbn [fst snd]. rewrite N.sub_diag. reflexivity.
  - intros [k x] p r p' E. destruct (N.eqb_spec k 0) as [->|Hk]; cbn [fst snd].
    + un E. split; [|reflexivity]. rewrite N.sub_0_r. lia.
    + un E. destruct (chunk_read _ _ _ E0) as [O1 L1]. destruct (advance_read _ _ _ _ E1) as [O2 L2].
      cbn [fst snd]. rewrite len_app, len_take. split; [lia|congruence].
Qed.

Lemma ignored_read : forall n, Read (fun _ => 0) (parse_bytes_ignored PB n).
Proof.
  intros n. apply Read_from with (I := fun _ => 0); [reflexivity|].
  intros k p r p' E. destruct (N.eqb_spec k 0) as [->|Hk].
  - un E. split; [lia|reflexivity].
  - un E. destruct (chunk_read _ _ _ E0) as [O1 L1]. destruct (advance_read _ _ _ _ E1) as [O2 L2].
    split; [lia|congruence].
Qed.

Lemma slow_fed : forall n, Fed (fun d => len d) (parse_bytes_slow pl PB n).
Proof.
  intros n p d p' E. unfold parse_bytes_slow in E. apply bind_ok in E. destruct E as (b & q & E0 & E).
  apply bind_ok in E. destruct E as (u & q0 & E1 & E).
  apply bound_read in E0. subst q. destruct (alloc_fed _ _ _ _ E1) as [O1 L1].
  apply (Read_from S (N * list N) (list N) (fun s => N.max (n - fst s) (len (snd s))) (fun d => N.max n (len d))) in E.
  - destruct E as [H L]. unfold fed. rewrite L, L1. cbn [total]. lia.
  - cbn [fst snd]. rewrite N.sub_diag. reflexivity.
  - clear. intros [k x] p r p' E. destruct (N.eqb_spec k 0) as [->|Hk]; cbn [fst snd].
    + un E. split; [|reflexivity]. rewrite N.sub_0_r. lia.
    + un E. destruct (chunk_read _ _ _ E0) as [O1 L1]. destruct (advance_read _ _ _ _ E1) as [O2 L2].
      cbn [fst snd]. rewrite len_app. split; [lia|congruence].
Qed.

Lemma direct_read : forall n,
  Read (fun r => match r with Some (_, d) => len d | None => 0 end) (parse_bytes_direct PB n).
Proof.
  intros n p d p' E. unfold parse_bytes_direct in E. un E.
  destruct (chunk_read _ _ _ E0) as [O1 L1]. destruct a as [x|x y].
  - un E. split; [lia|assumption].
  - destruct (len y <? n); un E.
    + split; [lia|assumption].
    + destruct (advance_read _ _ _ _ E1) as [O2 L2]. rewrite len_take. split; [lia|congruence].
Qed.

Lemma bytes_fed : forall n, Fed (items 1) (parse_bytes pl PB n).
Proof.
  intros n p d p' E. unfold parse_bytes in E. un E.
  destruct (direct_read _ _ _ _ E0) as [O1 L1]. unfold items, fed. destruct a as [[x y]|].
  - un E. cbn [cow_list] in *. rewrite L1. lia.
  - un E. apply hint_read in E1. subst q0. destruct (match a with Some h => n <=? h | None => false end).
    + un E. destruct (alloc_fed _ _ _ _ E1) as [O2 L2]. destruct (to_slice_read _ _ _ _ E2) as [O3 L3].
      cbn [cow_list]. rewrite L3, L2, L1. cbn [total]. lia.
    + un E. destruct (slow_fed _ _ _ _ E1) as [O2 L2]. cbn [cow_list]. rewrite L1 in L2. lia.
Qed.

Lemma array_read : forall n, Read (fun d => N.max n (len d)) (parse_array PB n).
Proof.
  intros n p d p' E. unfold parse_array in E. un E. destruct (chunk_read _ _ _ E0) as [O1 L1].
  destruct (N.ltb_spec (len (chunk_data a)) n).
  - destruct (to_slice_read _ _ _ _ E) as [O2 L2]. split; [lia|congruence].
  - un E. destruct (advance_read _ _ _ _ E1) as [O2 L2]. rewrite len_take. split; [lia|congruence].
Qed.

Lemma u8_fed : Fed (fun _ => 1) (parse_u8 PB).
Proof. intros p x p' E. unfold parse_u8 in E. un E. destruct (array_read _ _ _ _ E0) as [O L]. unfold fed. rewrite L. lia. Qed.
Lemma u16_fed : Fed (fun _ => 2) (parse_u16 pl PB).
Proof. intros p x p' E. unfold parse_u16 in E. un E. destruct (array_read _ _ _ _ E0) as [O L]. unfold fed. rewrite L. lia. Qed.
Lemma u32_fed : Fed (fun _ => 4) (parse_u32 pl PB).
Proof. intros p x p' E. unfold parse_u32 in E. un E. destruct (array_read _ _ _ _ E0) as [O L]. unfold fed. rewrite L. lia. Qed.
Lemma u64_fed : Fed (fun _ => 8) (parse_u64 pl PB).
Proof. intros p x p' E. unfold parse_u64 in E. un E. destruct (array_read _ _ _ _ E0) as [O L]. unfold fed. rewrite L. lia. Qed.
Lemma arr_fed : forall n, Fed (fun d => N.max n (len d)) (parse_array PB n).
Proof. intros. apply Read_Fed, array_read. Qed.

Lemma if_fed : forall A sz b (m : M S A), Fed sz m -> Fed (opt_bytes sz) (parse_if b m).
Proof.
  intros A sz b m H p x p' E. unfold parse_if in E. destruct b; un E; cbn [opt_bytes].
  - now apply H.
  - unfold fed. lia.
Qed.

(** What is asked for is there. *)
Lemma if_asked_fed : forall A sz f k (m : M S A), Fed sz m ->
  forall p x p', parse_if (contains f k) m p = (Ok x, p') ->
  fed p p' (opt_bytes sz x) /\ (contains f k = false -> x = None) /\ (contains f k = true -> exists y, x = Some y).
Proof.
  intros A sz f k m H p x p' E. split; [exact (if_fed A sz _ m H _ _ _ E)|].
  unfold parse_if in E. destruct (contains f k); un E; split; intros; try discriminate; eauto.
Qed.

Lemma padded_fed : forall A sz k (m : M S A), Fed sz m -> Fed sz (parse_padded PB k m).
Proof.
  intros A sz k m H p x p' E. unfold parse_padded in E. destruct (k =? 0); [discriminate|]. un E.
  destruct (H _ _ _ E0) as [O1 L1]. unfold fed.
  match type of E1 with (if ?b then _ else _) _ = _ => destruct b end.
  - un E1. lia.
  - destruct (ignored_read _ _ _ _ E1) as [O2 L2]. rewrite L2. lia.
Qed.

Lemma rest_read : Read (items 1) (parse_rest PB).
Proof.
  intros p d p' E. unfold parse_rest in E. un E.
  destruct (chunk_read _ _ _ E0) as [O1 L1]. destruct (advance_read _ _ _ _ E1) as [O2 L2].
  apply (Read_loop S (cow N) (cow N) (items 1) (items 1)) in E.
  - destruct E as [H L]. split; [|congruence]. unfold items in *. lia.
  - clear. intros x p r p' E. destruct (m_chunk PB p) as [[c|e| |] p1] eqn:Ec; try discriminate.
    + un E. destruct (chunk_read _ _ _ Ec) as [O1 L1]. destruct (advance_read _ _ _ _ E0) as [O2 L2].
      unfold items. cbn [cow_list]. rewrite len_app. split; [lia|congruence].
    + destruct (is_eof e); [|discriminate]. injection E as <- <-.
      assert (G : p_off p1 = p_off p /\ p_log p1 = p_log p).
      { unfold m_chunk in Ec. destruct (pb_chunk PB (p_buf p)). injection Ec as _ <-. auto. }
      destruct G. split; [lia|congruence].
Qed.

Lemma truncate_le : forall A w (c c' : cow A) n, cow_truncate c n = Ok c' ->
  items w c' <= items w c /\ items w c' <= w * n.
Proof.
  intros A w c c' n E. unfold items. destruct c as [a l|l]; cbn [cow_truncate] in E.
  - destruct (N.ltb_spec (len l) n); injection E as <-; cbn [cow_list]; rewrite ?len_take; split; apply N.mul_le_mono_l; lia.
  - injection E as <-. cbn [cow_list]. rewrite len_take. split; apply N.mul_le_mono_l; lia.
Qed.

Lemma split_le : forall (c : cow N) n x y, cow_split_at 1 c n = Ok (x, y) -> items 1 x + items 1 y = items 1 c.
Proof.
  intros c n x y E. unfold items. destruct c as [a l|l]; cbn [cow_split_at] in E.
  - destruct (N.ltb_spec (len l) n); [discriminate|]. injection E as <- <-. cbn [cow_list]. rewrite len_take, len_drop. lia.
  - destruct (N.eqb_spec n 0); [injection E as <- <-; cbn; lia|].
    destruct (N.eqb_spec n (len l)); [injection E as <- <-; cbn; lia|].
    destruct (N.ltb_spec (len l) n); [discriminate|]. injection E as <- <-. cbn [cow_list]. rewrite len_take, len_drop. lia.
Qed.

Lemma stack_le : forall (c c' : cow N) n, stack_truncate c n = Ok c' -> items 1 c' <= items 1 c.
Proof.
  intros c c' n E. unfold items. destruct c as [a l|l]; cbn [stack_truncate] in E.
  - destruct (len l <? n); [discriminate|]. injection E as <-. cbn [cow_list]. rewrite len_take. lia.
  - injection E as <-. cbn [cow_list]. rewrite len_take. lia.
Qed.

Lemma rest_fed : Fed (items 1) (parse_rest PB).
Proof. apply Read_Fed, rest_read. Qed.

Lemma string_fed : Fed (items 1) (parse_rest_trim_nul PB).
Proof.
  intros p d p' E. unfold parse_rest_trim_nul in E. un E. destruct (rest_fed _ _ _ E0) as [O L].
  apply (truncate_le N 1) in E. unfold fed. lia.
Qed.

Lemma repeated_fed : forall A (E : elem A) n, 0 < el_size E ->
  (forall p x p', el_parse E PB p = (Ok x, p') -> p_off p + el_size E <= p_off p' /\ p_log p' = p_log p) ->
  Fed (fun l => el_size E * len l) (parse_repeated pl PB E n).
Proof.
  intros A E n Hs He p d p' R. unfold parse_repeated in R. un R.
  apply bound_read in E0. subst q. destruct (alloc_fed _ _ _ _ E1) as [O1 L1].
  apply (Read_loop S (N * list A) (list A) (fun s => N.max (el_size E * (n - fst s)) (el_size E * len (snd s)))
    (fun d => N.max (el_size E * n) (el_size E * len d))) in R.
  - cbn [fst snd] in R. rewrite N.sub_diag in R. change (len (@nil A)) with 0 in R.
    destruct R as [H L]. unfold fed. rewrite L, L1. cbn [total].
    assert (N.min n a * el_size E <= el_size E * n) by nia. lia.
  - clear - He. intros [k x] p r p' R. destruct (N.eqb_spec k 0) as [->|Hk]; cbn [fst snd].
    + un R. split; [|reflexivity]. rewrite N.sub_0_r. lia.
    + un R. destruct (He _ _ _ E0) as [O1 L1]. cbn [fst snd]. rewrite len_app. change (len [a]) with 1.
      split; [|exact L1].
      assert (el_size E * (n - (k - 1)) <= el_size E * (n - k) + el_size E) by nia.
      assert (el_size E * (len x + 1) = el_size E * len x + el_size E) by nia. lia.
Qed.

Lemma slice_fed : forall A (E : elem A) n, 0 < el_size E ->
  (forall p x p', el_parse E PB p = (Ok x, p') -> p_off p + el_size E <= p_off p' /\ p_log p' = p_log p) ->
  Fed (items (el_size E)) (parse_slice pl PB E n).
Proof.
  intros A E n Hs He p d p' R. unfold parse_slice in R. un R.
  assert (H : p_off p + match a with Some (_, l) => el_size E * len l | None => 0 end <= p_off q /\ p_log q = p_log p).
  { clear R. unfold parse_slice_direct in E0. un E0. destruct (negb _); [un E0; split; [lia|reflexivity]|].
    destruct (checked_mul pl n (el_size E)) as [k|]; [|discriminate]. un E0.
    destruct (direct_read _ _ _ _ E1) as [O1 L1]. destruct a0 as [[x y]|]; [|un E0; split; [lia|exact L1]].
    destruct (_ || _); un E0; split; try exact L1; [|lia].
    unfold len at 1. rewrite map_length. fold (len (chunks (el_size E) y)). rewrite len_chunks by exact Hs.
    pose proof (N.mul_div_le (len y) (el_size E) ltac:(lia)). lia. }
  destruct H as [O1 L1]. unfold items. destruct a as [[x l]|].
  - un R. cbn [cow_list]. unfold fed. rewrite L1. lia.
  - un R. destruct (repeated_fed _ E n Hs He _ _ _ E1) as [O2 L2]. cbn [cow_list]. unfold fed. rewrite L1 in L2. lia.
Qed.

Lemma words_fed : forall n, Fed (items 8) (parse_slice pl PB (elem_u64 pl) n).
Proof.
  intros n. apply (slice_fed N (elem_u64 pl) n); [reflexivity|].
  intros p x p' E. cbn [el_parse elem_u64 el_size] in *. unfold parse_u64 in E. un E.
  destruct (array_read _ _ _ _ E0) as [O L]. split; [lia|exact L].
Qed.

Lemma u64_read : forall p x p', parse_u64 pl PB p = (Ok x, p') -> p_off p + 8 <= p_off p' /\ p_log p' = p_log p.
Proof. intros p x p' E. unfold parse_u64 in E. un E. destruct (array_read _ _ _ _ E0) as [O L]. split; [lia|exact L]. Qed.

Lemma ns_fed : forall n, Fed (items 16) (parse_slice pl PB (elem_ns pl) n).
Proof.
  intros n. apply (slice_fed ns_entry (elem_ns pl) n); [reflexivity|].
  intros p x p' E. cbn [el_parse elem_ns el_size] in *. unfold parse_ns_entry in E. un E.
  apply u64_read in E0, E1. split; [lia|destruct E0, E1; congruence].
Qed.

Lemma branches_fed : forall n, Fed (items 24) (parse_slice pl PB (elem_branch pl) n).
Proof.
  intros n. apply (slice_fed branch_entry (elem_branch pl) n); [reflexivity|].
  intros p x p' E. cbn [el_parse elem_branch el_size] in *. unfold parse_branch_entry in E. un E.
  apply u64_read in E0, E1, E2. split; [lia|destruct E0, E1, E2; congruence].
Qed.

(** All that is known of the steps of a run. *)
Ltac know :=
  repeat match goal with
  | E : parse_u8 _ _ = (Ok _, _) |- _ => apply u8_fed in E; destruct E
  | E : parse_u16 _ _ _ = (Ok _, _) |- _ => apply u16_fed in E; destruct E
  | E : parse_u32 _ _ _ = (Ok _, _) |- _ => apply u32_fed in E; destruct E
  | E : parse_u64 _ _ _ = (Ok _, _) |- _ => apply u64_fed in E; destruct E
  | E : parse_array _ _ _ = (Ok _, _) |- _ => apply arr_fed in E; destruct E
  | E : parse_bytes _ _ _ _ = (Ok _, _) |- _ => apply bytes_fed in E; destruct E
  | E : parse_rest _ _ = (Ok _, _) |- _ => apply rest_fed in E; destruct E
  | E : parse_rest_trim_nul _ _ = (Ok _, _) |- _ => apply string_fed in E; destruct E
  | E : parse_slice _ _ (elem_u64 _) _ _ = (Ok _, _) |- _ => apply words_fed in E; destruct E
  | E : parse_slice _ _ (elem_ns _) _ _ = (Ok _, _) |- _ => apply ns_fed in E; destruct E
  | E : parse_slice _ _ (elem_branch _) _ _ = (Ok _, _) |- _ => apply branches_fed in E; destruct E
  end.
Ltac fedup E := un E; know; unfold fed; cbv beta in *;
  cbn [bpf_tag mm_filename cm_comm ks_name cg_path nss_entries]; lia.
Ltac start f := let p := fresh "p" in let r := fresh "r" in let p' := fresh "p'" in let E := fresh "E" in
  intros p r p' E; unfold f in E; fedup E.

Lemma lost_fed : Fed (fun _ => 16) (parse_lost pl PB).
Proof. start @parse_lost. Qed.
Lemma lost_samples_fed : Fed (fun _ => 8) (parse_lost_samples pl PB).
Proof. start @parse_lost_samples. Qed.
Lemma exit_fed : Fed (fun _ => 24) (parse_exit pl PB).
Proof. start @parse_exit. Qed.
Lemma throttle_fed : Fed (fun _ => 24) (parse_throttle pl PB).
Proof. start @parse_throttle. Qed.
Lemma aux_fed : Fed (fun _ => 24) (parse_aux pl PB).
Proof. start @parse_aux. Qed.
Lemma itrace_start_fed : Fed (fun _ => 8) (parse_itrace_start pl PB).
Proof. start @parse_itrace_start. Qed.
Lemma switch_fed : Fed (fun _ => 8) (parse_switch_cpu_wide pl PB).
Proof.
  intros p r p' E. unfold parse_switch_cpu_wide in E. un E. destruct (negb _); un E; know; unfold fed; lia.
Qed.
Lemma bpf_fed : Fed (fun r => 8 + len (bpf_tag r)) (parse_bpf_event pl PB).
Proof. start @parse_bpf_event. Qed.
Lemma hw_fed : Fed (fun _ => 8) (parse_aux_output_hw_id pl PB).
Proof. start @parse_aux_output_hw_id. Qed.
Lemma mmap_fed : Fed (fun r => 32 + items 1 (mm_filename r)) (parse_mmap pl PB).
Proof. start @parse_mmap. Qed.
Lemma detail_fed : Fed detail_bytes (parse_mmap_detail pl PB).
Proof.
  intros p r p' E. unfold parse_mmap_detail in E. un E. destruct (negb _); un E.
  - destruct (20 <? a); un E; know; unfold fed; cbn [detail_bytes]; lia.
  - know. unfold fed. cbn [detail_bytes]. lia.
Qed.
Lemma mmap2_fed : Fed (fun r => 40 + detail_bytes (m2_detail r) + items 1 (m2_filename r)) (parse_mmap2 pl PB).
Proof.
  intros p r p' E. unfold parse_mmap2 in E. un E. know.
  repeat match goal with E : parse_mmap_detail _ _ _ = (Ok _, _) |- _ => apply detail_fed in E; destruct E end.
  unfold fed. cbn [m2_detail m2_filename]. lia.
Qed.
Lemma comm_fed : Fed (fun r => 8 + items 1 (cm_comm r)) (parse_comm pl PB).
Proof. start @parse_comm. Qed.
Lemma ksymbol_fed : Fed (fun r => 16 + items 1 (ks_name r)) (parse_ksymbol pl PB).
Proof. start @parse_ksymbol. Qed.
Lemma cgroup_fed : Fed (fun r => 8 + items 1 (cg_path r)) (parse_cgroup pl PB).
Proof. start @parse_cgroup. Qed.
Lemma namespaces_fed : Fed (fun r => 8 + items 16 (nss_entries r)) (parse_namespaces pl PB).
Proof. start @parse_namespaces. Qed.

Lemma text_poke_fed : Fed (fun r => 8 + items 1 (tp_old r) + items 1 (tp_new r)) (parse_text_poke pl PB).
Proof.
  intros p r p' E. unfold parse_text_poke in E. un E. know.
  match goal with x : (cow N * cow N)%type |- _ => destruct x as [u v] end.
  repeat match goal with
  | E : cow_split_at _ _ _ = Ok _ |- _ => apply split_le in E
  | E : cow_truncate _ _ = Ok _ |- _ => cbn [snd] in E; apply (truncate_le N 1) in E
  end.
  unfold fed. cbn [tp_old tp_new fst]. lia.
Qed.

(** The times which a read format asks for. *)
Ltac asked :=
  repeat match goal with E : parse_if (contains _ _) _ _ = (Ok _, _) |- _ =>
    apply (if_asked_fed N (fun _ => 8)) in E; [|exact u64_fed];
    let A := fresh in let B := fresh in let C := fresh in destruct E as ((A & B) & C & E) end;
  repeat match goal with
  | H : contains ?f ?k = false -> ?x = None, H' : contains ?f ?k = true -> _ |- _ =>
      destruct (contains f k) eqn:?;
      [let y := fresh in let E := fresh in destruct (H' eq_refl) as [y E]; rewrite E in *; clear H H'
      |rewrite (H eq_refl) in *; clear H H']
  end; cbn [opt_bytes] in *.

Lemma value_fed : Fed value_bytes (parse_read_value pl PB).
Proof.
  intros p r p' E. unfold parse_read_value in E. un E.
  destruct (contains _ RF_GROUP); [discriminate|]. destruct (negb _); [discriminate|]. un E.
  know. unfold fed, value_bytes, if_asked. cbn [rv_format]. asked; lia.
Qed.

Lemma read_fed : Fed (fun r => 8 + value_bytes (rd_values r)) (parse_read pl PB).
Proof.
  intros p r p' E. unfold parse_read in E. un E. know.
  match goal with E : parse_read_value _ _ _ = (Ok _, _) |- _ => apply value_fed in E; destruct E end.
  unfold fed. cbn [rd_values]. lia.
Qed.

Lemma group_fed : Fed group_bytes (parse_read_group pl PB).
Proof.
  intros p r p' E. unfold parse_read_group in E. un E.
  destruct (negb (contains _ RF_GROUP)); [discriminate|]. destruct (negb _); [discriminate|]. un E.
  match type of E with match ?x with _ => _ end _ = _ => destruct x as [k|]; [|discriminate] end. un E.
  know. unfold fed, group_bytes, if_asked. cbn [rg_format rg_data]. asked; lia.
Qed.

Lemma contains_lor_flag : forall f i, i <> 3 -> contains (N.lor f RF_GROUP) (2 ^ i) = contains f (2 ^ i).
Proof.
  intros f i Hi. unfold contains. rewrite N.land_lor_distr_l.
  replace (N.land RF_GROUP (2 ^ i)) with 0; [now rewrite N.lor_0_r|].
  symmetry. apply N.bits_inj. intros j. rewrite N.land_spec, N.bits_0, N.pow2_bits_eqb.
  destruct (N.eqb_spec i j) as [<-|]; [|apply andb_false_r].
  unfold RF_GROUP. rewrite N.pow2_bits_eqb.
  destruct (N.eqb_spec 3 i); [lia|reflexivity].
Qed.

Lemma sample_read_fed : Fed group_bytes (parse_sample_read pl PB).
Proof.
  intros p r p' E. unfold parse_sample_read in E. un E. destruct (contains _ RF_GROUP).
  - now apply group_fed.
  - un E. apply value_fed in E0. destruct E0 as [H L]. unfold fed.
    enough (group_bytes (group_of_value a) <= value_bytes a) by lia.
    unfold group_bytes, value_bytes, group_of_value, if_asked, items, rv_get_id, rv_get_lost, then_some.
    cbn [rg_format rg_data cow_list].
    rewrite (contains_lor_flag _ 0), (contains_lor_flag _ 1) by discriminate.
    change (2 ^ 0) with RF_TIME_ENABLED. change (2 ^ 1) with RF_TIME_RUNNING.
    rewrite !len_app. destruct (contains (rv_format a) RF_ID), (contains (rv_format a) RF_LOST); cbn [opt_list];
      change (len [rv_value a]) with 1; change (len (@nil N)) with 0;
      change (len [rv_id a]) with 1; change (len [rv_lost a]) with 1; lia.
Qed.

Lemma registers_fed : forall mask, Fed regs_bytes (parse_registers pl PB mask).
Proof. intros mask p r p' E. unfold parse_registers in E. un E. know. unfold fed, regs_bytes. cbn [rg_regs]. lia. Qed.

Lemma callchain_fed : Fed (items 8) (parse_callchain pl PB).
Proof. intros p r p' E. unfold parse_callchain in E. un E. know. unfold fed. lia. Qed.

Lemma raw_fed : Fed (items 1) (parse_raw pl PB).
Proof. apply padded_fed. intros p r p' E. un E. know. unfold fed. lia. Qed.

Lemma lbr_fed : forall hw, Fed (fun r => items 24 (fst r) + if_there 8 (snd r)) (parse_lbr pl PB hw).
Proof.
  intros hw p r p' E. unfold parse_lbr in E. un E. know.
  match goal with E : parse_if _ _ _ = (Ok _, _) |- _ => apply (if_fed N (fun _ => 8) _ _ u64_fed) in E; destruct E end.
  unfold fed, if_there. cbn [fst snd]. lia.
Qed.

Lemma stack_fed : Fed (items 1) (parse_stack_user pl PB).
Proof.
  intros p r p' E. unfold parse_stack_user in E. un E.
  match type of E with (if ?b then _ else _) _ = _ => destruct b; [discriminate|] end. un E.
  match goal with E : (if ?b then _ else _) _ = _ |- _ => destruct b; un E end; know;
  match goal with E : stack_truncate _ _ = Ok _ |- _ => apply stack_le in E end; unfold fed; lia.
Qed.

Lemma sample_aux_fed : Fed (items 1) (parse_sample_aux pl PB).
Proof. intros p r p' E. unfold parse_sample_aux in E. un E. know. unfold fed. lia. Qed.

Lemma cpu_fed : Fed (fun _ => 4) (a <- parse_u32 pl PB ;; parse_u32 pl PB ;;; ret a).
Proof. intros p r p' E. un E. know. unfold fed. lia. Qed.

Lemma if_there_fed : forall w b (m : M S N), Fed (fun _ => w) m -> Fed (if_there w) (parse_if b m).
Proof. intros w b m H. apply (if_fed N (fun _ => w) b m H). Qed.

Lemma or_there : forall w (x y : option N), if_there w (opt_or x y) <= if_there w x + if_there w y.
Proof. intros w [x|] [y|]; unfold if_there; cbn [opt_or opt_bytes]; lia. Qed.

(** Fields that may be asked for. *)
Ltac maybe :=
  repeat match goal with
  | E : parse_if _ (parse_u64 _ _) _ = (Ok _, _) |- _ => apply (if_there_fed 8 _ _ u64_fed) in E; destruct E
  | E : parse_if _ (parse_u32 _ _) _ = (Ok _, _) |- _ => apply (if_there_fed 4 _ _ u32_fed) in E; destruct E
  | E : parse_if _ (bind _ _) _ = (Ok _, _) |- _ => apply (if_there_fed 4 _ _ cpu_fed) in E; destruct E
  | E : parse_if _ (parse_sample_read _ _) _ = (Ok _, _) |- _ => apply (if_fed _ _ _ _ sample_read_fed) in E; destruct E
  | E : parse_if _ (parse_callchain _ _) _ = (Ok _, _) |- _ => apply (if_fed _ _ _ _ callchain_fed) in E; destruct E
  | E : parse_if _ (parse_raw _ _) _ = (Ok _, _) |- _ => apply (if_fed _ _ _ _ raw_fed) in E; destruct E
  | E : parse_if _ (parse_lbr _ _ _) _ = (Ok _, _) |- _ => apply (if_fed _ _ _ _ (lbr_fed _)) in E; destruct E
  | E : parse_if _ (parse_registers _ _ _) _ = (Ok _, _) |- _ => apply (if_fed _ _ _ _ (registers_fed _)) in E; destruct E
  | E : parse_if _ (parse_stack_user _ _) _ = (Ok _, _) |- _ => apply (if_fed _ _ _ _ stack_fed) in E; destruct E
  | E : parse_if _ (parse_sample_aux _ _) _ = (Ok _, _) |- _ => apply (if_fed _ _ _ _ sample_aux_fed) in E; destruct E
  end.

Lemma sample_id_fed : Fed id_bytes (parse_sample_id pl PB).
Proof.
  intros p r p' E. unfold parse_sample_id in E. un E. destruct (negb _); un E.
  - unfold fed, id_bytes, if_there. cbn. lia.
  - maybe. unfold fed, id_bytes. cbn [si_pid si_tid si_time si_id si_stream_id si_cpu].
    match goal with |- context [if_there 8 (opt_or ?x ?y)] => pose proof (or_there 8 x y) end. lia.
Qed.

Lemma lbr_parts : forall l : option (cow branch_entry * option N),
  if_there 8 (match l with Some (_, hw) => hw | None => None end) +
  opt_bytes (items 24) (match l with Some (l, _) => Some l | None => None end) =
  opt_bytes (fun r => items 24 (fst r) + if_there 8 (snd r)) l.
Proof. intros [[l hw]|]; cbn [opt_bytes fst snd]; [apply N.add_comm|reflexivity]. Qed.

Lemma sample_fed : Fed sample_bytes (parse_sample pl PB).
Proof.
  intros p r p' E. unfold parse_sample in E. un E. maybe. unfold fed, sample_bytes.
  cbn [s_ip s_pid s_tid s_time s_addr s_id s_stream_id s_cpu s_period s_values s_callchain s_raw s_lbr_hw_index
    s_lbr s_regs_user s_stack_user s_weight s_data_src s_transaction s_regs_intr s_phys_addr s_aux s_cgroup
    s_data_page_size s_code_page_size].
  match goal with |- context [if_there 8 (opt_or ?x ?y)] => pose proof (or_there 8 x y) end.
  match goal with x : option (cow branch_entry * option N) |- _ => pose proof (lbr_parts x) end.
  lia.
Qed.

Lemma Fed_map : forall A B sz sz' (f : A -> B) (m : M S A), Fed sz m -> (forall x, sz' (f x) = sz x) ->
  Fed sz' (r <- m ;; ret (f r)).
Proof. intros A B sz sz' f m H Hf p r p' E. un E. rewrite Hf. now apply H. Qed.

Lemma body_fed : forall t, Fed body_bytes (parse_body pl PB t).
Proof.
  intros t. unfold parse_body.
  Ltac one L := eapply Fed_map; [apply L|reflexivity].
  repeat match goal with |- Fed _ (if ?b then _ else _) => destruct b;
    [first [one mmap_fed|one lost_fed|one comm_fed|one exit_fed|one throttle_fed|one read_fed
           |one sample_fed|one mmap2_fed|one aux_fed|one itrace_start_fed|one lost_samples_fed
           |one switch_fed|one namespaces_fed|one ksymbol_fed|one bpf_fed|one cgroup_fed
           |one text_poke_fed|one hw_fed]|] end.
  one rest_fed.
Qed.

Lemma header_fed : Fed (fun _ => 8) (parse_header pl PB).
Proof. intros p r p' E. unfold parse_header in E. un E. know. unfold fed. lia. Qed.
End Prims.
