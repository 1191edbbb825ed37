(** Theorems: the work of programs of clients goes with the bytes they take (C88). *)
From Coq Require Import NArith List Bool Lia.
From Verif Require Import Base BaseFacts Types Platform Config Buf Parser Contract Flat Refine.
From Verif Require Import Instances Prims Records Sample Record Attr RefFrame RefTop Safe NoHint Spec Work WorkTop.
From Verif Require Import Wire Codec Client ClientFacts ClientSafe ClientHosts ClientWork ExData.
From Verif Require Import PropsFrame PropsSafe PropsWork PropsClient.
Import ListNotations.
Open Scope N_scope.

(** ** C88: a program which makes at most [k] calls of the parser, and [j] for each byte it takes, has the source called
    at most [4 + 18 * j] times for each byte and [18 * k] times more, on every source and whatever comes of it; and
    memory reserved at most [8 * j] times for each byte and [8 * k] times more. *)
Theorem C88_calls : forall pl A (m : prog A) j k S (PB : parsebuf S) mo fin cap mem p l a,
  pl_ok pl -> cap <= isize_max pl -> source PB mo fin cap mem p l a -> asks m j k ->
  exists r p' n new, match r with Ok _ | Err _ => True | Panic | Fuel => False end /\
    run pl m _ (counted PB) (watched p) = (r, p') /\ n <= len l /\ p_off p' = p_off p + n /\
    calls_made p' <= (4 + 18 * j) * n + 18 * k /\
    reserved p p' new /\ len new <= 8 * (j * n + k) /\ Forall (fun x => x <= N.max cap 65536) new.
Proof.
  intros pl A m j k S PB mo fin cap mem p l a Hpl Hcap (rep & HC & Hr & Hw) Ha.
  pose proof (record_cap pl Hpl).
  assert (HC' : contract PB mo fin (N.max cap 65536) mem rep) by (eapply contract_mono; [exact HC|lia]).
  pose proof (run_costs pl Hpl A m j k Ha _ _ _ _ _ _ _ a snd (counted_contract _ _ _ _ _ _ _ HC')
    ltac:(lia) ltac:(lia) (counted_counts _ PB)) as H1.
  rewrite <- (N.add_0_r a) in Hr.
  destruct (H1 (watched p) l 0 Hr Hw) as (r & p' & l' & pos' & n & E & Hd & Hs & Ho & Hc & Hl).
  destruct (st_log _ _ _ _ _ _ _ _ _ Hs) as (new & En & Hf). cbn [watched p_buf p_off p_log snd] in *.
  exists r, p', n, new. split; [exact Hd|]. split; [exact E|].
  split; [destruct (st_len _ _ _ _ _ _ _ _ _ Hs) as (i & Hi & _ & _ & Hi2); cbn [watched p_off] in Hi2; lia|].
  split; [exact Ho|]. split; [unfold calls_made; lia|]. split; [exact En|]. split; [|exact Hf].
  rewrite En, len_app in Hl. lia.
Qed.

(** So all its work is bounded by the length of the data, with numbers which the program alone determines. *)
Theorem C88_linear : forall pl A (m : prog A) j k S (PB : parsebuf S) mo fin cap mem p l a,
  pl_ok pl -> cap <= isize_max pl -> source PB mo fin cap mem p l a -> asks m j k ->
  calls_made (snd (run pl m _ (counted PB) (watched p))) <= (4 + 18 * j) * len l + 18 * k.
Proof.
  intros pl A m j k S PB mo fin cap mem p l a Hpl Hcap Hs Ha.
  destruct (C88_calls pl A m j k S PB mo fin cap mem p l a Hpl Hcap Hs Ha) as (r & p' & n & new & _ & E & Hn & _ & Hc & _).
  rewrite E. cbn [snd]. assert ((4 + 18 * j) * n <= (4 + 18 * j) * len l) by (apply N.mul_le_mono_l; exact Hn). lia.
Qed.

(** Without repetitions: four calls for each byte, and 18 for each call of the parser. *)
Corollary C88_plain : forall pl A (m : prog A) k S (PB : parsebuf S) mo fin cap mem p l a,
  pl_ok pl -> cap <= isize_max pl -> source PB mo fin cap mem p l a -> asks m 0 k ->
  calls_made (snd (run pl m _ (counted PB) (watched p))) <= 4 * len l + 18 * k.
Proof.
  intros pl A m k S PB mo fin cap mem p l a Hpl Hcap Hs Ha.
  exact (C88_linear pl A m 0 k S PB mo fin cap mem p l a Hpl Hcap Hs Ha).
Qed.

(** ** C88, why what is repeated must take bytes: a count from the data costs as many rounds as it says. *)
Theorem C88_nothing_refuted : forall c, c < 2 ^ 64 ->
  let p := on_slice 4096 [7] ex_cfg in
  source slice_buf Whole eof_error 1 (memory_of 4096 [7]) p [7] 4096 /\
  exists v p', run pl64 (PRepeat 0 (PArray 0) c) _ (counted slice_buf) (watched p) = (Ok v, p') /\
    p_off p' = p_off p /\ calls_made p' = 2 * c.
Proof.
  intros c Hc p. split.
  { apply slice_source; [repeat constructor|reflexivity|apply N.le_refl|apply memory_of_at]. }
  cbn [run]. assert (E : as_usize pl64 c = c) by (apply N.mod_small; exact Hc). rewrite E.
  set (body := fun '(n, vec) =>
    if n =? 0 then ret (inr vec) else x <- parse_array (counted slice_buf) 0 ;; ret (inl (n - 1, vec ++ [x]))).
  set (at_ := fun i : N => mkParser ex_cfg (mkSlice 4096 [7], i) 0 [0]).
  assert (G : forall k i (vec : list (list N)), k < 2 ^ 64 ->
    exists v, loop body (k, vec) (at_ i) = (Ok v, at_ (i + 2 * k))).
  { intros k i vec Hk.
    apply (loop_rule body (fun k x q => fst x = k /\ exists i, q = at_ i)
      (fun x q r => forall i, q = at_ i -> exists v, r = (Ok v, at_ (i + 2 * fst x)))) with (k := k);
      [|split; [reflexivity|now exists i]|exact Hk|reflexivity].
    clear. intros k [n vec] q [E [i ->]]. cbn [fst] in E. subst k. unfold body at 1.
    destruct (N.eqb_spec n 0) as [->|Hn].
    - intros i' Ei. exists vec. rewrite Ei. cbn [fst]. now rewrite N.mul_0_r, N.add_0_r.
    - assert (E1 : parse_array (counted slice_buf) 0 (at_ i) = (Ok [], at_ (i + 1 + 1))) by reflexivity.
      unfold bind at 1. rewrite E1. cbn [ret]. exists (n - 1). split; [lia|]. split; [split; [reflexivity|eauto]|].
      intros r Hr i' Ei. assert (Ei' : i' = i) by exact (eq_sym (f_equal (fun q => snd (p_buf q)) Ei)). subst i'.
      destruct (Hr _ eq_refl) as (v & ->). exists v. cbn [fst].
      replace (i + 1 + 1 + 2 * (n - 1)) with (i + 2 * n) by lia. reflexivity. }
  assert (E2 : parse_repeated_with pl64 (counted slice_buf) 0 (parse_array (counted slice_buf) 0) c (watched p) =
    loop body (c, []) (at_ 0)).
  { unfold parse_repeated_with, safe_capacity_bound. unfold bind at 1. cbn [N.eqb ret].
    rewrite N.mul_0_r. reflexivity. }
  change (as_usize pl64 0) with 0. rewrite E2. destruct (G c 0 [] Hc) as (v & Ev). exists v, (at_ (0 + 2 * c)). split; [exact Ev|]. split; reflexivity.
Qed.

(** The sample of the documentation: eleven calls of the parser and one for each byte at most; of 72 bytes one by one,
    147 calls of the source. *)
Example C88_example :
  asks custom_example 1 11 /\ (forall k, asks (PThen PU8 (fun n => PArray n)) 0 (2 + k)) /\
  (let p' := snd (run pl64 custom_example _ (counted bufreader_buf) (watched (one_by_one doc_bytes))) in
   calls_made p' = 147 /\ p_off p' = 72 /\ p_log p' = [32]) /\
  (let p' := snd (run pl64 (PThen PU16 (fun n => PRepeat 2 PU16 n)) _ (counted bufreader_buf)
                   (watched (one_by_one (w16 LE 100 ++ w16 LE 3 ++ w16 LE 4)))) in
   calls_made p' = 16 /\ p_off p' = 6).
Proof.
  split.
  { cbn. exists 3, 8. split; [lia|]. split.
    - exists 1, 2. split; [lia|]. split; [lia|]. intros _. exists 1, 1. split; [lia|]. split; [lia|]. intros _.
      exists 1, 0. split; [lia|]. split; [lia|]. auto.
    - intros h. exists 7. split; [lia|]. intros md. exists 7, 0. split; [lia|]. split; [|auto].
      exists 1, 6. split; [lia|]. split; [lia|]. intros _. exists 1, 5. split; [lia|]. split; [lia|]. intros _.
      exists 1, 4. split; [lia|]. split; [lia|]. intros _. exists 1, 3. split; [lia|]. split; [lia|]. intros _.
      exists 2, 1. split; [lia|]. split; [|intros _; exists 1, 0; split; [lia|]; split; [lia|]; auto].
      exists 0, 1. repeat (split; [lia|]). lia. }
  split; [intros k; exists 1, 1; split; [lia|]; split; [cbn; lia|]; intros n; cbn; lia|].
  split; vm_compute; auto.
Qed.

Print Assumptions C88_calls.
Print Assumptions C88_linear.
Print Assumptions C88_plain.
Print Assumptions C88_nothing_refuted.
