(** Facts about bit fields and option structs. *)
From Coq Require Import NArith List Bool Lia.
From Verif Require Import Base BaseFacts Types Platform Bits Records Sample Access OptStruct.
Import ListNotations.
Open Scope N_scope.

Lemma get_ne : forall o w q, q < 8 ->
  get q (ne_bytes o w) = Some (byte_at w (match o with LE => q | BE => 7 - q end)).
Proof.
  intros o w q Hq.
  assert (H : q = 0 \/ q = 1 \/ q = 2 \/ q = 3 \/ q = 4 \/ q = 5 \/ q = 6 \/ q = 7) by lia.
  destruct o; destruct H as [->|[->|[->|[->|[->|[->|[->| ->]]]]]]]; reflexivity.
Qed.

Lemma testbit_byte_at : forall w q r, r < 8 ->
  N.testbit (byte_at w q) r = N.testbit w (8 * q + r).
Proof.
  intros w q r Hr. unfold byte_at. rewrite N.land_spec, N.shiftr_spec by lia.
  replace (N.testbit 255 r) with true; [rewrite andb_true_r; f_equal; lia|].
  assert (H : r = 0 \/ r = 1 \/ r = 2 \/ r = 3 \/ r = 4 \/ r = 5 \/ r = 6 \/ r = 7) by lia.
  destruct H as [->|[->|[->|[->|[->|[->|[->| ->]]]]]]]; reflexivity.
Qed.

Lemma land_mask : forall x k, (N.land x (N.shiftl 1 k) =? N.shiftl 1 k) = N.testbit x k.
Proof.
  intros x k. rewrite N.shiftl_1_l. exact (contains_pow2 x k).
Qed.

(** Bit [i] of the storage, counted from the low end on little-endian hosts and
    from the high end on big-endian ones. *)
Lemma get_bit_word : forall o w i, i < 64 ->
  get_bit o (ne_bytes o w) i = N.testbit w (match o with LE => i | BE => 63 - i end).
Proof.
  intros o w i Hi. unfold get_bit.
  assert (Hm := N.div_mod i 8 ltac:(discriminate)).
  assert (Hr := N.mod_lt i 8 ltac:(discriminate)).
  set (q := i / 8) in *. set (r := i mod 8) in *. clearbody q r.
  rewrite get_ne by lia. cbn [unwrap_or]. rewrite land_mask.
  destruct o; rewrite testbit_byte_at by lia; f_equal; lia.
Qed.

Lemma get_loop_bits : forall o st off width k i val j,
  i + N.of_nat k <= width ->
  N.testbit (get_loop o st off width k i val) j =
  N.testbit val j
  || match o with
     | LE => (i <=? j) && (j <? i + N.of_nat k) && get_bit o st (j + off)
     | BE => (width - i - N.of_nat k <=? j) && (j <? width - i)
             && get_bit o st (width - 1 - j + off)
     end.
Proof.
  intros o st off width. induction k; intros i val j Hw.
  - cbn [get_loop]. change (N.of_nat 0) with 0.
    destruct o.
    + replace (j <? i + 0) with (j <? i) by (f_equal; lia).
      destruct (N.leb_spec i j), (N.ltb_spec j i); try lia; now rewrite ?orb_false_r.
    + destruct (N.leb_spec (width - i - 0) j), (N.ltb_spec j (width - i)); try lia;
        now rewrite ?orb_false_r.
  - rewrite Nat2N.inj_succ in *. cbn [get_loop]. rewrite IHk by lia.
    set (k' := N.of_nat k) in *. clearbody k'.
    assert (Hv : forall b, N.testbit (if get_bit o st (i + off) then N.lor val (N.shiftl 1 b) else val) j
      = N.testbit val j || ((j =? b) && get_bit o st (i + off))).
    { intros b. destruct (get_bit o st (i + off)).
      - rewrite N.lor_spec, N.shiftl_1_l, N.pow2_bits_eqb, andb_true_r, N.eqb_sym. reflexivity.
      - now rewrite andb_false_r, orb_false_r. }
    destruct o; rewrite Hv; rewrite <- orb_assoc; f_equal.
    + destruct (N.eqb_spec j i) as [->|Hne].
      * replace (i + 1 <=? i) with false by (symmetry; apply N.leb_gt; lia).
        replace (i <=? i) with true by (symmetry; apply N.leb_le; lia).
        replace (i <? i + N.succ k') with true by (symmetry; apply N.ltb_lt; lia).
        now rewrite !andb_true_l, andb_false_l, orb_false_r.
      * rewrite andb_false_l, orb_false_l. f_equal.
        destruct (N.leb_spec (i + 1) j), (N.leb_spec i j), (N.ltb_spec j (i + 1 + k')),
          (N.ltb_spec j (i + N.succ k')); try reflexivity; lia.
    + destruct (N.eqb_spec j (width - 1 - i)) as [->|Hne].
      * replace (width - 1 - i <? width - (i + 1)) with false by (symmetry; apply N.ltb_ge; lia).
        replace (width - i - N.succ k' <=? width - 1 - i) with true by (symmetry; apply N.leb_le; lia).
        replace (width - 1 - i <? width - i) with true by (symmetry; apply N.ltb_lt; lia).
        replace (width - 1 - (width - 1 - i)) with i by lia.
        now rewrite andb_false_r, andb_false_l, !andb_true_l, orb_false_r.
      * rewrite andb_false_l, orb_false_l. f_equal.
        destruct (N.leb_spec (width - (i + 1) - k') j), (N.leb_spec (width - i - N.succ k') j),
          (N.ltb_spec j (width - (i + 1))), (N.ltb_spec j (width - i)); try reflexivity; lia.
Qed.

(** Bits [off .. off + width - 1] of a word, as a number. *)
Lemma get_bits_field : forall o w off width, off + width <= 64 ->
  get_bits o (ne_bytes o w) off width =
  (w / 2 ^ (match o with LE => off | BE => 64 - off - width end)) mod 2 ^ width.
Proof.
  intros o w off width H. unfold get_bits. apply N.bits_inj; intros j.
  rewrite get_loop_bits by lia. rewrite N.bits_0, orb_false_l, N2Nat.id.
  destruct (N.ltb_spec j width) as [Hj|Hj].
  - rewrite N.mod_pow2_bits_low, N.div_pow2_bits by lia.
    destruct o.
    + replace (0 <=? j) with true by (symmetry; apply N.leb_le; lia).
      replace (j <? 0 + width) with true by (symmetry; apply N.ltb_lt; lia).
      rewrite !andb_true_l, get_bit_word by lia. reflexivity.
    + replace (width - 0 - width <=? j) with true by (symmetry; apply N.leb_le; lia).
      replace (j <? width - 0) with true by (symmetry; apply N.ltb_lt; lia).
      rewrite !andb_true_l, get_bit_word by lia. f_equal. lia.
  - rewrite N.mod_pow2_bits_high by lia.
    destruct o.
    + replace (j <? 0 + width) with false by (symmetry; apply N.ltb_ge; lia).
      now rewrite andb_false_r.
    + replace (j <? width - 0) with false by (symmetry; apply N.ltb_ge; lia).
      now rewrite andb_false_r.
Qed.

Lemma bit_nonzero : forall w i, negb ((w / 2 ^ i) mod 2 ^ 1 =? 0) = N.testbit w i.
Proof.
  intros w i. change (2 ^ 1) with 2. rewrite N.testbit_eqb.
  assert (H := N.mod_lt (w / 2 ^ i) 2 ltac:(discriminate)).
  set (m := (w / 2 ^ i) mod 2) in *. clearbody m.
  destruct (N.eqb_spec m 0), (N.eqb_spec m 1); cbn [negb]; congruence || (exfalso; lia).
Qed.

Lemma mod_small_pow : forall x a b, a <= b -> (x mod 2 ^ a) mod 2 ^ b = x mod 2 ^ a.
Proof.
  intros x a b H. apply N.mod_small. apply N.lt_le_trans with (2 ^ a).
  - apply N.mod_lt, N.pow_nonzero. discriminate.
  - apply N.pow_le_mono_r; [discriminate|exact H].
Qed.

(** * Option structs *)

Section Os.
Context {V : Type}.
Notation ostruct := (ostruct V).

Definition present (vals : list (option V)) (i : N) : bool :=
  match get i vals with Some (Some _) => true | _ => false end.

Lemma get_cons_0 : forall A (x : A) l, get 0 (x :: l) = Some x.
Proof. reflexivity. Qed.

Lemma get_cons_S : forall A (x : A) l n, 0 < n -> get n (x :: l) = get (n - 1) l.
Proof.
  intros A x l n Hn. cbn [get]. destruct (N.eqb_spec n 0); [lia|]. f_equal. lia.
Qed.

Lemma os_init_spec : forall vals i flags,
  snd (os_init (V:=V) i vals flags) = vals /\
  forall j, N.testbit (fst (os_init i vals flags)) j =
            N.testbit flags j || ((i <=? j) && present vals (j - i)).
Proof.
  induction vals as [|v vals IH]; intros i flags.
  - cbn [os_init fst snd]. split; [reflexivity|]. intros j. unfold present. cbn [get].
    now rewrite andb_false_r, orb_false_r.
  - assert (Hp : forall j, (i + 1 <=? j) && present vals (j - (i + 1)) =
      (i <=? j) && negb (j =? i) && present (v :: vals) (j - i)).
    { intros j. destruct (N.leb_spec (i + 1) j), (N.leb_spec i j), (N.eqb_spec j i); try lia;
        cbn [andb negb]; try reflexivity.
      unfold present. rewrite (get_cons_S _ v vals (j - i)) by lia.
      now replace (j - (i + 1)) with (j - i - 1) by lia. }
    destruct v as [v|]; cbn [os_init].
    + destruct (IH (i + 1) (N.lor flags (N.shiftl 1 i))) as [H1 H2].
      destruct (os_init (i + 1) vals (N.lor flags (N.shiftl 1 i))) as [f l].
      cbn [fst snd] in *. subst l. split; [reflexivity|]. intros j.
      rewrite H2, N.lor_spec, N.shiftl_1_l, N.pow2_bits_eqb, Hp, <- orb_assoc. f_equal.
      rewrite (N.eqb_sym i j). destruct (N.eqb_spec j i) as [->|Hne].
      * replace (i <=? i) with true by (symmetry; apply N.leb_le; lia).
        replace (i - i) with 0 by lia. reflexivity.
      * cbn [negb]. now rewrite andb_true_r, orb_false_l.
    + destruct (IH (i + 1) flags) as [H1 H2].
      destruct (os_init (i + 1) vals flags) as [f l].
      cbn [fst snd] in *. subst l. split; [reflexivity|]. intros j.
      rewrite H2, Hp. f_equal. destruct (N.eqb_spec j i) as [->|Hne].
      * replace (i - i) with 0 by lia. cbn [negb]. unfold present. cbn [get].
        change (0 =? 0) with true. cbv iota. now rewrite !andb_false_r.
      * cbn [negb]. now rewrite andb_true_r.
Qed.

(** What a struct holds: the values given to [new]. *)
Definition holds (s : ostruct) (vals : list (option V)) : Prop :=
  os_fields s = vals /\ forall i, N.testbit (os_flags s) i = present vals i.

Lemma os_new_holds : forall bits vals, len vals < bits ->
  exists s, os_new bits vals = Ok s /\ holds s vals.
Proof.
  intros bits vals H. unfold os_new. destruct (N.ltb_spec (len vals) bits); [|lia].
  destruct (os_init_spec vals 0 0) as [H1 H2].
  destruct (os_init 0 vals 0) as [f l]. cbn [fst snd] in *. subst l.
  eexists; split; [reflexivity|]. split; [reflexivity|]. intros i. cbn [os_flags].
  rewrite H2, N.bits_0, N.sub_0_r. now replace (0 <=? i) with true by (symmetry; apply N.leb_le; lia).
Qed.

Lemma os_flag_holds : forall s vals i, holds s vals -> os_flag s i = present vals i.
Proof.
  intros s vals i [_ H]. unfold os_flag. rewrite N.shiftl_1_l, land_pow2, H.
  destruct (present vals i); [|reflexivity].
  assert (2 ^ i <> 0) by (apply N.pow_nonzero; discriminate).
  destruct (N.eqb_spec (2 ^ i) 0); [contradiction|reflexivity].
Qed.

Definition given (vals : list (option V)) (i : N) : option V :=
  match get i vals with Some v => v | None => None end.

Lemma os_get_holds : forall s vals i, holds s vals -> os_get s i = Ok (given vals i).
Proof.
  intros s vals i H. unfold os_get. rewrite (os_flag_holds _ _ _ H).
  destruct H as [H _]. unfold os_slot, present, given. rewrite H.
  destruct (get i vals) as [[v|]|]; reflexivity.
Qed.

Lemma given_nth : forall vals i v, nth_error vals (N.to_nat i) = Some v -> given vals i = v.
Proof. intros vals i v H. unfold given. now rewrite get_nth, H. Qed.

Lemma os_gets_holds : forall s vals, holds s vals -> forall rest i pre,
  vals = pre ++ rest -> i = len pre -> os_gets s i (length rest) = Ok rest.
Proof.
  intros s vals H. induction rest as [|v rest IH]; intros i pre E ->; [reflexivity|].
  cbn [length os_gets]. rewrite (os_get_holds _ _ _ H).
  rewrite (given_nth vals (len pre) v).
  - rewrite (IH _ (pre ++ [v])); [reflexivity|now rewrite <- app_assoc|].
    rewrite len_app, len_cons, len_nil. lia.
  - subst vals. unfold len. rewrite Nat2N.id, nth_error_app2 by lia.
    now rewrite PeanoNat.Nat.sub_diag.
Qed.

Lemma os_clone_holds : forall bits s vals, len vals < bits -> holds s vals ->
  exists s', os_clone bits s = Ok s' /\ holds s' vals.
Proof.
  intros bits s vals Hb H. unfold os_clone.
  assert (Hf : os_fields s = vals) by apply H. rewrite Hf.
  rewrite (os_gets_holds _ _ H vals 0 []) by reflexivity.
  now apply os_new_holds.
Qed.

Fixpoint somes (vals : list (option V)) : list V :=
  match vals with
  | [] => []
  | Some v :: t => v :: somes t
  | None :: t => somes t
  end.

Lemma os_drops_holds : forall s vals, holds s vals -> forall rest i pre,
  vals = pre ++ rest -> i = len pre -> os_drops s i (length rest) = Ok (somes rest).
Proof.
  intros s vals H. induction rest as [|v rest IH]; intros i pre E ->; [reflexivity|].
  cbn [length os_drops]. rewrite (os_flag_holds _ _ _ H).
  assert (Hn : get (len pre) vals = Some v).
  { rewrite get_nth. subst vals. unfold len. rewrite Nat2N.id, nth_error_app2 by lia.
    now rewrite PeanoNat.Nat.sub_diag. }
  assert (Hr : os_drops s (len pre + 1) (length rest) = Ok (somes rest)).
  { apply (IH _ (pre ++ [v])); [now rewrite <- app_assoc|].
    rewrite len_app, len_cons, len_nil. lia. }
  unfold present, os_slot. rewrite Hn. destruct v as [v|].
  - assert (Hf : os_fields s = vals) by apply H. rewrite Hf, Hn, Hr. reflexivity.
  - rewrite Hr. reflexivity.
Qed.

Lemma os_drop_holds : forall s vals, holds s vals -> os_drop s = Ok (somes vals).
Proof.
  intros s vals H. unfold os_drop. assert (Hf : os_fields s = vals) by apply H. rewrite Hf.
  now apply (os_drops_holds _ _ H vals 0 []).
Qed.

Lemma os_default_holds : forall n, holds (os_default n) (repeat None n).
Proof.
  intros n. split; [reflexivity|]. intros i. cbn [os_default os_flags]. rewrite N.bits_0.
  unfold present. rewrite get_nth.
  destruct (nth_error (repeat None n) (N.to_nat i)) as [[v|]|] eqn:E; try reflexivity.
  apply nth_error_In, repeat_spec in E. discriminate.
Qed.

End Os.
