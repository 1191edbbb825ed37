(** UTF-8 as a specification, and facts about the Debug helpers. *)
From Coq Require Import ZArith NArith List Bool Lia.
From Verif Require Import Base BaseFacts Types Fmt.
Import ListNotations.
Open Scope N_scope.

(** Unicode scalar values and their UTF-8 encoding (The Unicode Standard, table
    3-6). *)
Definition scalar (c : N) : Prop := c < 55296 \/ 57344 <= c < 1114112.

Definition encode (c : N) : list N :=
  if c <? 128 then [c]
  else if c <? 2048 then [192 + c / 64; 128 + c mod 64]
  else if c <? 65536 then [224 + c / 4096; 128 + (c / 64) mod 64; 128 + c mod 64]
  else [240 + c / 262144; 128 + (c / 4096) mod 64; 128 + (c / 64) mod 64; 128 + c mod 64].

Ltac Zify.zify_post_hook ::= Z.to_euclidean_division_equations.

Ltac bools :=
  repeat match goal with
  | |- context [?a <? ?b] => destruct (N.ltb_spec a b); try lia
  | |- context [?a <=? ?b] => destruct (N.leb_spec a b); try lia
  | |- context [?a =? ?b] => destruct (N.eqb_spec a b); try lia
  end.

Lemma step1 : forall c t, c < 128 -> utf8_step (c :: t) = UChar 1.
Proof. intros c t H. unfold utf8_step. bools; reflexivity. Qed.

Lemma in_range_true : forall lo hi b, lo <= b <= hi -> in_range lo hi b = true.
Proof. intros lo hi b H. unfold in_range. bools; reflexivity. Qed.

Lemma in_range_false : forall lo hi b, b < lo \/ hi < b -> in_range lo hi b = false.
Proof. intros lo hi b H. unfold in_range. bools; reflexivity. Qed.

Lemma in_range_inv : forall lo hi b, in_range lo hi b = true -> lo <= b <= hi.
Proof.
  intros lo hi b H. unfold in_range in H. apply andb_true_iff in H.
  rewrite !N.leb_le in H. exact H.
Qed.

Lemma step2 : forall b0 b1 t, 194 <= b0 <= 223 -> 128 <= b1 <= 191 ->
  utf8_step (b0 :: b1 :: t) = UChar 2.
Proof.
  intros b0 b1 t H0 H1. unfold utf8_step, cont. rewrite !in_range_true by lia.
  now replace (b0 <? 128) with false by (symmetry; apply N.ltb_ge; lia).
Qed.

Lemma second3_true : forall b0 b1, 128 <= b1 <= 191 -> 224 <= b0 <= 239 ->
  (b0 = 224 -> 160 <= b1) -> (b0 = 237 -> b1 <= 159) -> second3 b0 b1 = true.
Proof.
  intros b0 b1 H1 H0 Ha Hb. unfold second3, cont.
  destruct (N.eqb_spec b0 224) as [E|E].
  - rewrite (in_range_true 160 191 b1) by lia. reflexivity.
  - destruct (N.eqb_spec b0 237) as [E'|E'].
    + rewrite (in_range_true 128 159 b1) by lia. now rewrite !andb_true_l, orb_true_r.
    + rewrite (in_range_true 128 191 b1) by lia. rewrite !andb_true_r, !andb_false_l.
      destruct (N.leb_spec b0 236).
      * now rewrite (in_range_true 225 236 b0) by lia.
      * rewrite (in_range_true 238 239 b0) by lia. now rewrite !orb_true_r.
Qed.

Lemma second4_true : forall b0 b1, 128 <= b1 <= 191 -> 240 <= b0 <= 244 ->
  (b0 = 240 -> 144 <= b1) -> (b0 = 244 -> b1 <= 143) -> second4 b0 b1 = true.
Proof.
  intros b0 b1 H1 H0 Ha Hb. unfold second4, cont.
  destruct (N.eqb_spec b0 240) as [E|E].
  - rewrite (in_range_true 144 191 b1) by lia. reflexivity.
  - destruct (N.eqb_spec b0 244) as [E'|E'].
    + rewrite (in_range_true 128 143 b1) by lia. now rewrite !andb_true_l, orb_true_r.
    + rewrite (in_range_true 128 191 b1) by lia. rewrite !andb_true_r, !andb_false_l.
      now rewrite (in_range_true 241 243 b0) by lia.
Qed.

Lemma second3_inv : forall b0 b1, second3 b0 b1 = true ->
  128 <= b1 <= 191 /\ 224 <= b0 <= 239 /\ (b0 = 224 -> 160 <= b1) /\ (b0 = 237 -> b1 <= 159).
Proof.
  intros b0 b1 H. unfold second3, cont in H.
  rewrite !orb_true_iff, !andb_true_iff, !N.eqb_eq in H.
  destruct H as [[[[E H]|[H0 H]]|[E H]]|[H0 H]]; apply in_range_inv in H;
    try apply in_range_inv in H0; lia.
Qed.

Lemma second4_inv : forall b0 b1, second4 b0 b1 = true ->
  128 <= b1 <= 191 /\ 240 <= b0 <= 244 /\ (b0 = 240 -> 144 <= b1) /\ (b0 = 244 -> b1 <= 143).
Proof.
  intros b0 b1 H. unfold second4, cont in H.
  rewrite !orb_true_iff, !andb_true_iff, !N.eqb_eq in H.
  destruct H as [[[E H]|[H0 H]]|[E H]]; apply in_range_inv in H;
    try apply in_range_inv in H0; lia.
Qed.

Lemma step3 : forall b0 b1 b2 t, second3 b0 b1 = true -> 128 <= b2 <= 191 ->
  utf8_step (b0 :: b1 :: b2 :: t) = UChar 3.
Proof.
  intros b0 b1 b2 t H H2. assert (Hi := second3_inv _ _ H). unfold utf8_step.
  replace (b0 <? 128) with false by (symmetry; apply N.ltb_ge; lia).
  rewrite (in_range_false 194 223), (in_range_true 224 239) by lia. rewrite H.
  unfold cont. now rewrite in_range_true by lia.
Qed.

Lemma step4 : forall b0 b1 b2 b3 t, second4 b0 b1 = true -> 128 <= b2 <= 191 ->
  128 <= b3 <= 191 -> utf8_step (b0 :: b1 :: b2 :: b3 :: t) = UChar 4.
Proof.
  intros b0 b1 b2 b3 t H H2 H3. assert (Hi := second4_inv _ _ H). unfold utf8_step.
  replace (b0 <? 128) with false by (symmetry; apply N.ltb_ge; lia).
  rewrite (in_range_false 194 223), (in_range_false 224 239), (in_range_true 240 244) by lia.
  rewrite H. unfold cont. now rewrite !in_range_true by lia.
Qed.

Lemma step_encode : forall c t, scalar c ->
  utf8_step (encode c ++ t) = UChar (len (encode c)).
Proof.
  intros c t H. unfold encode, scalar in *.
  destruct (N.ltb_spec c 128); [now apply step1|].
  destruct (N.ltb_spec c 2048); [apply step2; lia|].
  destruct (N.ltb_spec c 65536).
  - apply step3; [|lia]. apply second3_true; lia.
  - apply step4; [|lia|lia]. apply second4_true; lia.
Qed.

(** The inverse on each shape. *)
Lemma encode2 : forall b0 b1, 194 <= b0 <= 223 -> 128 <= b1 <= 191 ->
  exists c, scalar c /\ encode c = [b0; b1].
Proof.
  intros b0 b1 H0 H1. exists ((b0 - 192) * 64 + (b1 - 128)). split; [unfold scalar; lia|].
  unfold encode. bools. repeat f_equal; lia.
Qed.

Lemma encode3 : forall b0 b1 b2, second3 b0 b1 = true -> 128 <= b2 <= 191 ->
  exists c, scalar c /\ encode c = [b0; b1; b2].
Proof.
  intros b0 b1 b2 H H2. apply second3_inv in H.
  exists ((b0 - 224) * 4096 + (b1 - 128) * 64 + (b2 - 128)). split; [unfold scalar; lia|].
  unfold encode. bools. repeat f_equal; lia.
Qed.

Lemma encode4 : forall b0 b1 b2 b3, second4 b0 b1 = true -> 128 <= b2 <= 191 ->
  128 <= b3 <= 191 -> exists c, scalar c /\ encode c = [b0; b1; b2; b3].
Proof.
  intros b0 b1 b2 b3 H H2 H3. apply second4_inv in H.
  exists ((b0 - 240) * 262144 + (b1 - 128) * 4096 + (b2 - 128) * 64 + (b3 - 128)).
  split; [unfold scalar; lia|].
  unfold encode. bools. repeat f_equal; lia.
Qed.

Definition is_cont (b : N) : Prop := 128 <= b <= 191.

(** What [utf8_step] says about a non-empty input. *)
Lemma utf8_step_spec : forall l, l <> [] ->
  match utf8_step l with
  | UChar w => exists c t, scalar c /\ l = encode c ++ t /\ w = len (encode c)
  | UBad e => exists b cs t, l = (b :: cs) ++ t /\ Forall is_cont cs /\
                unwrap_or e (len l) = len (b :: cs)
  end.
Proof.
  assert (B1 : forall b (t : list N), exists b' cs t', b :: t = (b' :: cs) ++ t' /\
    Forall is_cont cs /\ unwrap_or (Some 1) (len (b :: t)) = len (b' :: cs)).
  { intros b t. exists b, [], t. repeat split. constructor. }
  assert (E1 : forall b, exists b' cs t', [b] = (b' :: cs) ++ t' /\
    Forall is_cont cs /\ unwrap_or None (len [b]) = len (b' :: cs)).
  { intros b. exists b, [], []. repeat split. constructor. }
  assert (C : forall b, cont b = true -> is_cont b) by (intros b H; now apply in_range_inv in H).
  intros [|b0 t] Hne; [congruence|]. unfold utf8_step.
  destruct (N.ltb_spec b0 128) as [H0|H0].
  { exists b0, t. unfold encode. destruct (N.ltb_spec b0 128); [|lia].
    split; [left; lia|]. split; reflexivity. }
  destruct (in_range 194 223 b0) eqn:R2.
  { apply in_range_inv in R2. destruct t as [|b1 t]; [apply E1|].
    destruct (cont b1) eqn:C1; [|apply B1]. apply C in C1.
    destruct (encode2 b0 b1 R2 C1) as (c & Hc & E). exists c, t. rewrite E. auto. }
  destruct (in_range 224 239 b0) eqn:R3.
  { apply in_range_inv in R3. destruct t as [|b1 t]; [apply E1|].
    destruct (second3 b0 b1) eqn:S3; [|apply B1].
    assert (C1 : is_cont b1) by (apply second3_inv in S3; unfold is_cont; lia).
    destruct t as [|b2 t]; [exists b0, [b1], []; repeat split; auto using Forall_cons, Forall_nil|].
    destruct (cont b2) eqn:C2.
    - apply C in C2. destruct (encode3 b0 b1 b2 S3 C2) as (c & Hc & E). exists c, t.
      rewrite E. auto.
    - exists b0, [b1], (b2 :: t). repeat split; auto using Forall_cons, Forall_nil. }
  destruct (in_range 240 244 b0) eqn:R4; [|apply B1].
  apply in_range_inv in R4. destruct t as [|b1 t]; [apply E1|].
  destruct (second4 b0 b1) eqn:S4; [|apply B1].
  assert (C1 : is_cont b1) by (apply second4_inv in S4; unfold is_cont; lia).
  destruct t as [|b2 t]; [exists b0, [b1], []; repeat split; auto using Forall_cons, Forall_nil|].
  destruct (cont b2) eqn:C2; [apply C in C2|exists b0, [b1], (b2 :: t); repeat split; auto using Forall_cons, Forall_nil].
  destruct t as [|b3 t]; [exists b0, [b1; b2], []; repeat split; auto using Forall_cons, Forall_nil|].
  destruct (cont b3) eqn:C3; [apply C in C3|exists b0, [b1; b2], (b3 :: t); repeat split; auto using Forall_cons, Forall_nil].
  destruct (encode4 b0 b1 b2 b3 S4 C2 C3) as (c & Hc & E). exists c, t. rewrite E. auto.
Qed.

Lemma encode_not_nil : forall c, encode c <> [].
Proof.
  intros c. unfold encode. destruct (c <? 128), (c <? 2048), (c <? 65536); discriminate.
Qed.

Lemma encode_first : forall c t b r, b :: r = encode c ++ t -> ~ is_cont b.
Proof.
  intros c t b r H. unfold encode, is_cont in *.
  intros Hb.
  assert (Hd : forall x y : list N, x = y -> hd 0 x = hd 0 y) by (now intros ? ? ->).
  apply Hd in H. clear Hd. cbn [hd] in H.
  destruct (N.ltb_spec c 128); [cbn [app hd] in H; lia|].
  destruct (N.ltb_spec c 2048); [cbn [app hd] in H; lia|].
  destruct (N.ltb_spec c 65536); cbn [app hd] in H; lia.
Qed.

(** Arithmetic of the decoder. *)
Lemma land_ones_mod : forall a k m, m = N.ones k -> N.land a m = a mod 2 ^ k.
Proof. intros a k m ->. apply N.land_ones. Qed.

Lemma lor_shift : forall a b k, b < 2 ^ k -> N.lor (N.shiftl a k) b = a * 2 ^ k + b.
Proof.
  intros a b k H. rewrite N.shiftl_mul_pow2. symmetry. rewrite N.add_nocarry_lxor.
  - rewrite <- N.shiftl_mul_pow2. apply N.lxor_lor.
    apply N.bits_inj; intros i. rewrite N.land_spec, N.bits_0.
    destruct (N.ltb_spec i k).
    + now rewrite N.shiftl_spec_low by assumption.
    + rewrite (proj2 (N.testbit_false b i)); [apply andb_false_r|].
      rewrite N.div_small; [reflexivity|].
      apply N.lt_le_trans with (2 ^ k); [exact H|]. apply N.pow_le_mono_r; [discriminate|assumption].
  - rewrite <- N.shiftl_mul_pow2.
    apply N.bits_inj; intros i. rewrite N.land_spec, N.bits_0.
    destruct (N.ltb_spec i k).
    + now rewrite N.shiftl_spec_low by assumption.
    + rewrite (proj2 (N.testbit_false b i)); [apply andb_false_r|].
      rewrite N.div_small; [reflexivity|].
      apply N.lt_le_trans with (2 ^ k); [exact H|]. apply N.pow_le_mono_r; [discriminate|assumption].
Qed.

Lemma code_point_encode : forall c t, scalar c ->
  code_point ((encode c ++ t) ++ [0; 0; 0]) = (c, len (encode c)).
Proof.
  intros c t Hc. rewrite <- app_assoc. set (r := t ++ [0; 0; 0]).
  assert (Hr : exists x y z q, r = x :: y :: z :: q).
  { unfold r. destruct t as [|x [|y [|z t]]]; cbn [app]; repeat eexists. }
  destruct Hr as (x & y & z & q & Hr). rewrite Hr. clear Hr r t. unfold scalar in Hc. unfold encode.
  destruct (N.ltb_spec c 128).
  { cbn [app code_point]. destruct (N.ltb_spec c 128); [reflexivity|lia]. }
  destruct (N.ltb_spec c 2048).
  { cbn [app code_point]. bools. f_equal.
    rewrite (land_ones_mod _ 5) by reflexivity. rewrite (land_ones_mod _ 6) by reflexivity.
    rewrite lor_shift; change (2 ^ 5) with 32; change (2 ^ 6) with 64; lia. }
  destruct (N.ltb_spec c 65536).
  { cbn [app code_point]. bools. f_equal.
    rewrite (land_ones_mod _ 4) by reflexivity. rewrite !(land_ones_mod _ 6) by reflexivity.
    change (2 ^ 4) with 16; change (2 ^ 6) with 64.
    assert (A : forall a b, N.lor (N.shiftl (a mod 64) 6) (b mod 64) = a mod 64 * 64 + b mod 64).
    { intros a b. rewrite lor_shift; change (2 ^ 6) with 64; [reflexivity|]. lia. }
    rewrite A. rewrite lor_shift; change (2 ^ 12) with 4096; lia. }
  cbn [app code_point]. bools. f_equal.
  rewrite (land_ones_mod _ 3) by reflexivity. rewrite !(land_ones_mod _ 6) by reflexivity.
  change (2 ^ 3) with 8; change (2 ^ 6) with 64.
  assert (A : forall a b, N.lor (N.shiftl (a mod 64) 6) (b mod 64) = a mod 64 * 64 + b mod 64).
  { intros a b. rewrite lor_shift; change (2 ^ 6) with 64; [reflexivity|]. lia. }
  rewrite A.
  assert (A2 : forall a b, b < 4096 ->
    N.lor (N.shiftl (a mod 64) 12) b = a mod 64 * 4096 + b).
  { intros a b Hb. rewrite lor_shift; change (2 ^ 12) with 4096; [reflexivity|exact Hb]. }
  rewrite A2 by lia. rewrite lor_shift; change (2 ^ 18) with 262144; lia.
Qed.

(** * Scanning *)

Definition text_of (cs : list N) : list N := flat_map encode cs.

Lemma encode_length : forall c, (1 <= length (encode c))%nat.
Proof. intros c. assert (H := encode_not_nil c). destruct (encode c); [congruence|cbn; lia]. Qed.

Lemma from_utf8_spec : forall k pos l, (length l <= k)%nat ->
  match from_utf8 k pos l with
  | UOk => exists cs, Forall scalar cs /\ l = text_of cs
  | UErr v e => exists cs r, Forall scalar cs /\ l = text_of cs ++ r /\ r <> [] /\
                  v = pos + len (text_of cs) /\ utf8_step r = UBad e
  end.
Proof.
  induction k; intros pos l Hk.
  - destruct l; [|cbn in Hk; lia]. cbn [from_utf8]. exists []. split; [constructor|reflexivity].
  - destruct l as [|b l']; [exists []; split; [constructor|reflexivity]|].
    remember (b :: l') as l eqn:El. assert (Hne : l <> []) by now subst l.
    replace (from_utf8 (S k) pos l) with
      (match utf8_step l with
       | UChar w => from_utf8 k (pos + w) (drop w l)
       | UBad e => UErr pos e end) by now subst l.
    clear b l' El.
    assert (Hs := utf8_step_spec l Hne). destruct (utf8_step l) as [w|e] eqn:Es.
    + destruct Hs as (c & t & Hc & -> & ->). rewrite drop_app_exact by reflexivity.
      assert (Hl := encode_length c). rewrite app_length in Hk.
      specialize (IHk (pos + len (encode c)) t ltac:(lia)).
      destruct (from_utf8 k (pos + len (encode c)) t) as [|v e].
      * destruct IHk as (cs & Hcs & ->). exists (c :: cs). split; [now constructor|reflexivity].
      * destruct IHk as (cs & r & Hcs & -> & Hr & -> & He). exists (c :: cs), r.
        split; [now constructor|]. split; [cbn [text_of flat_map]; now rewrite app_assoc|].
        split; [exact Hr|]. split; [|exact He].
        cbn [text_of flat_map]. fold (text_of cs). rewrite len_app. lia.
    + exists [], l. cbn [text_of flat_map app len length]. repeat split; auto.
      rewrite N.add_0_r. reflexivity.
Qed.

Lemma chars_text : forall cs k, Forall scalar cs -> (length (text_of cs) <= k)%nat ->
  chars k (text_of cs) = cs.
Proof.
  induction cs as [|c cs IH]; intros k Hs Hk; [destruct k; reflexivity|].
  inversion_clear Hs as [|? ? Hc Hcs].
  cbn [text_of flat_map] in *. fold (text_of cs) in *.
  assert (Hl := encode_length c). rewrite app_length in Hk.
  destruct k as [|k]; [lia|].
  assert (E : chars (S k) (encode c ++ text_of cs) =
    let (c', w) := code_point ((encode c ++ text_of cs) ++ [0; 0; 0]) in
    c' :: chars k (drop w (encode c ++ text_of cs))).
  { assert (Hn := encode_not_nil c). destruct (encode c); [congruence|reflexivity]. }
  rewrite E, code_point_encode by exact Hc.
  rewrite drop_app_exact by reflexivity. f_equal. apply IH; [exact Hcs|lia].
Qed.

(** * Pieces: a printed string is a sequence of characters and stray bytes. *)

Inductive piece : Type := Char (c : N) | Stray (b : N).

Definition raw (ps : list piece) : list N :=
  flat_map (fun p => match p with Char c => encode c | Stray b => [b] end) ps.

Definition starts_char (l : list N) : Prop := exists c t, scalar c /\ l = encode c ++ t.

(** A byte is stray exactly if no character starts there. *)
Fixpoint proper (ps : list piece) : Prop :=
  match ps with
  | [] => True
  | Char c :: t => scalar c /\ proper t
  | Stray b :: t => ~ starts_char (b :: raw t) /\ proper t
  end.

Lemma raw_app : forall a b, raw (a ++ b) = raw a ++ raw b.
Proof. intros a b. unfold raw. apply flat_map_app. Qed.

Lemma raw_chars : forall cs, raw (map Char cs) = text_of cs.
Proof. induction cs; [reflexivity|]. cbn. fold (raw (map Char cs)). now rewrite IHcs. Qed.

Lemma raw_strays : forall l, raw (map Stray l) = l.
Proof. induction l; [reflexivity|]. cbn. fold (raw (map Stray l)). now rewrite IHl. Qed.

Lemma proper_chars : forall cs ps, Forall scalar cs -> proper ps -> proper (map Char cs ++ ps).
Proof. induction cs; intros ps H Hp; [exact Hp|]. inversion_clear H. split; auto. Qed.

Lemma proper_strays : forall cs ps, Forall is_cont cs -> proper ps -> proper (map Stray cs ++ ps).
Proof.
  induction cs as [|b cs IH]; intros ps H Hp; [exact Hp|]. inversion_clear H as [|? ? Hb Hcs].
  split; [|now apply IH]. intros (c & t & Hc & E). apply encode_first in E. contradiction.
Qed.

Lemma app_encode_inj : forall c c' t t', scalar c -> scalar c' ->
  encode c ++ t = encode c' ++ t' -> c = c' /\ t = t'.
Proof.
  intros c c' t t' Hc Hc' E.
  assert (H1 := code_point_encode c t Hc). rewrite E, code_point_encode in H1 by assumption.
  injection H1 as H1 _. subst c'. split; [reflexivity|]. now apply app_inv_head in E.
Qed.

Lemma proper_unique : forall ps qs, proper ps -> proper qs -> raw ps = raw qs -> ps = qs.
Proof.
  assert (Hr : forall p (ps : list piece), raw (p :: ps) =
    match p with Char c => encode c | Stray b => [b] end ++ raw ps) by reflexivity.
  induction ps as [|p ps IH]; intros [|q qs] Hp Hq E.
  - reflexivity.
  - exfalso. rewrite Hr in E. destruct q as [c|b]; [|discriminate].
    assert (H := encode_not_nil c). destruct (encode c); [congruence|discriminate].
  - exfalso. rewrite Hr in E. destruct p as [c|b]; [|discriminate].
    assert (H := encode_not_nil c). destruct (encode c); [congruence|discriminate].
  - rewrite !Hr in E. destruct p as [c|b], q as [c'|b']; cbn [proper] in Hp, Hq.
    + destruct Hp as [Hc Hp], Hq as [Hc' Hq]. apply app_encode_inj in E; try assumption.
      destruct E as [-> E]. f_equal. now apply IH.
    + destruct Hq as [Hq _]. elim Hq. exists c, (raw ps). split; [apply Hp|]. now symmetry.
    + destruct Hp as [Hp _]. elim Hp. exists c', (raw qs). split; [apply Hq|exact E].
    + injection E as -> E. f_equal. apply IH; [apply Hp|apply Hq|exact E].
Qed.

Lemma escape_high : forall b, 128 <= b ->
  escape_ascii b = [92; 120; lower_hex (b / 16); lower_hex (b mod 16)].
Proof.
  intros b H. unfold escape_ascii. bools. now rewrite in_range_false by lia.
Qed.

Definition show (esc : N -> list N) (p : piece) : list N :=
  match p with Char c => esc c | Stray b => [92; 120; lower_hex (b / 16); lower_hex (b mod 16)] end.

Lemma show_strays : forall esc l, Forall (fun b => 128 <= b) l ->
  flat_map (show esc) (map Stray l) = flat_map escape_ascii l.
Proof.
  intros esc. induction l as [|b l IH]; intros H; [reflexivity|]. inversion_clear H.
  cbn [map flat_map]. rewrite IH by assumption. cbn [show]. now rewrite escape_high.
Qed.

(** The lower-case hexadecimal digits, in order. *)
Definition hex_digits : list N :=
  [48; 49; 50; 51; 52; 53; 54; 55; 56; 57; 97; 98; 99; 100; 101; 102].

(** A stray byte is a backslash, an x and its two digits. *)
Definition stray_text (b : N) : list N :=
  [92; 120; nth (N.to_nat (b / 16)) hex_digits 0; nth (N.to_nat (b mod 16)) hex_digits 0].

Definition piece_text (esc : N -> list N) (p : piece) : list N :=
  match p with Char c => esc c | Stray b => stray_text b end.

Lemma lower_hex_digit : forall n, n < 16 -> lower_hex n = nth (N.to_nat n) hex_digits 0.
Proof.
  intros n H. rewrite <- (N2Nat.id n) in *. set (k := N.to_nat n) in *. clearbody k. clear n.
  rewrite Nat2N.id. do 16 (destruct k as [|k]; [reflexivity|]). lia.
Qed.

Lemma show_piece : forall esc ps, Forall (fun b => b < 256) (raw ps) ->
  flat_map (show esc) ps = flat_map (piece_text esc) ps.
Proof.
  intros esc. induction ps as [|[c|b] ps IH]; intros H; [reflexivity| |];
    cbn [raw flat_map] in *; apply Forall_app in H; destruct H as [H1 H2];
    rewrite IH by exact H2; [reflexivity|].
  cbn [show piece_text]. unfold stray_text. inversion_clear H1.
  now rewrite !lower_hex_digit by lia.
Qed.

(** A single ASCII byte is a character, so stray bytes are at least 128. *)
Lemma stray_high : forall b t, ~ starts_char (b :: t) -> 128 <= b.
Proof.
  intros b t H. destruct (N.leb_spec 128 b) as [E|E]; [exact E|]. elim H.
  exists b, t. split; [left; lia|]. unfold encode. now bools.
Qed.

Lemma show_chars : forall esc cs, flat_map (show esc) (map Char cs) = flat_map esc cs.
Proof. intros esc. induction cs; [reflexivity|]. cbn. now rewrite IHcs. Qed.

Lemma byte_str_loop_spec : forall esc k data, (length data <= k)%nat ->
  exists ps, raw ps = data /\ proper ps /\
    byte_str_loop esc k data = Ok (flat_map (show esc) ps ++ [34]).
Proof.
  intros esc. induction k; intros data Hk.
  - destruct data; [|cbn in Hk; lia]. exists []. repeat split.
  - destruct data as [|b0 d0]; [exists []; repeat split|].
    remember (b0 :: d0) as data eqn:Ed.
    assert (Hne : data <> []) by now subst data.
    assert (E : byte_str_loop esc (S k) data =
      let r := from_utf8 (length data) 0 data in
      let text := match r with UOk => data | UErr v _ => take v data end in
      let errlen :=
        match r with UOk => 0 | UErr v e => unwrap_or e (len data - v) end in
      let data' := drop (len text) data in
      if len data' <? errlen then Panic
      else
        out_map
          (fun o => flat_map esc (chars (length text) text)
                    ++ flat_map escape_ascii (take errlen data') ++ o)
          (byte_str_loop esc k (drop errlen data'))) by now subst data.
    rewrite E. clear E b0 d0 Ed. cbv zeta.
    assert (Hs := from_utf8_spec (length data) 0 data (le_n _)).
    destruct (from_utf8 (length data) 0 data) as [|v e].
    + destruct Hs as (cs & Hcs & ->). rewrite drop_all by lia.
      cbn [len length N.of_nat]. change (0 <? 0) with false. cbv iota.
      exists (map Char cs). split; [apply raw_chars|].
      split; [rewrite <- (app_nil_r (map Char cs)); apply proper_chars; [exact Hcs|exact I]|].
      rewrite chars_text by (auto with arith). rewrite show_chars.
      destruct k; reflexivity.
    + destruct Hs as (cs & r & Hcs & -> & Hr & -> & He). rewrite N.add_0_l.
      rewrite take_app_exact by reflexivity. rewrite drop_app_exact by reflexivity.
      rewrite len_app. replace (len (text_of cs) + len r - len (text_of cs)) with (len r) by lia.
      assert (Hst := utf8_step_spec r Hr). rewrite He in Hst.
      destruct Hst as (b & bs & t & -> & Hbs & ->).
      rewrite drop_app_exact, take_app_exact by reflexivity.
      assert (Hlt : len ((b :: bs) ++ t) <? len (b :: bs) = false).
      { apply N.ltb_ge. rewrite len_app. lia. }
      rewrite Hlt.
      destruct (IHk t) as (ps & <- & Hp & ->).
      { rewrite !app_length in Hk. cbn [length] in Hk. lia. }
      cbn [out_map].
      assert (Hnot : ~ starts_char (b :: raw (map Stray bs ++ ps))).
      { intros (c & t' & Hc & Eb). rewrite raw_app, raw_strays in Eb.
        assert (Eb' : (b :: bs) ++ raw ps = encode c ++ t') by exact Eb.
        rewrite Eb', step_encode in He by assumption. discriminate. }
      exists (map Char cs ++ Stray b :: map Stray bs ++ ps).
      split; [|split].
      * rewrite raw_app, raw_chars. f_equal.
        change (Stray b :: map Stray bs ++ ps) with (map Stray (b :: bs) ++ ps).
        now rewrite raw_app, raw_strays.
      * apply proper_chars; [exact Hcs|]. split; [exact Hnot|].
        now apply proper_strays.
      * rewrite chars_text by (auto with arith).
        change (Stray b :: map Stray bs ++ ps) with (map Stray (b :: bs) ++ ps).
        rewrite !flat_map_app, show_chars, show_strays; [now rewrite <- !app_assoc|].
        constructor.
        -- destruct (N.ltb_spec b 128) as [Hb|Hb]; [|exact Hb].
           elim Hnot. exists b, (raw (map Stray bs ++ ps)). split; [left; lia|].
           unfold encode. destruct (N.ltb_spec b 128); [reflexivity|lia].
        -- eapply Forall_impl; [|exact Hbs]. unfold is_cont. intros; lia.
Qed.
