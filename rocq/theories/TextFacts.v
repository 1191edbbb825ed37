(** Facts about Text.v: numbers can be read back, and texts of values that keep
    their commas inside brackets can be told apart in a struct or a list. *)
From Coq Require Import String Ascii NArith List Bool Lia Arith.
From Verif Require Import Base BaseFacts Types Read Text.
Import ListNotations.
Open Scope N_scope.

(** * Numbers *)

(** The number with the given digits, highest first. *)
Definition number (base : N) (ds : list N) : N := fold_left (fun a d => a * base + d) ds 0.

Lemma number_snoc : forall b l d, number b (l ++ [d]) = number b l * b + d.
Proof. intros b l d. unfold number. now rewrite fold_left_app. Qed.

Lemma digits_facts : forall k b n, 2 <= b -> n < b ^ N.of_nat k ->
  number b (digits k b n) = n /\ Forall (fun d => d < b) (digits k b n) /\
  (k <> O -> digits k b n <> []) /\ (forall t, digits k b n = 0 :: t -> t = []).
Proof.
  induction k as [|k IH]; intros b n Hb Hn.
  - change (n < b ^ 0) in Hn. rewrite N.pow_0_r in Hn. assert (n = 0) as -> by lia. repeat split; try constructor; try congruence.
    intros t E. discriminate.
  - cbn [digits]. destruct (N.ltb_spec n b) as [Hlt|Hge].
    + split; [reflexivity|]. split; [now repeat constructor|]. split; [discriminate|].
      intros t E. now injection E.
    + assert (Hb0 : b <> 0) by lia.
      assert (Hd : n / b < b ^ N.of_nat k).
      { apply N.div_lt_upper_bound; [exact Hb0|].
        rewrite Nat2N.inj_succ, N.pow_succ_r' in Hn. exact Hn. }
      destruct (IH b (n / b) Hb Hd) as (E & F & G & Z).
      assert (Hnz : n / b <> 0).
      { intros E0. apply N.div_small_iff in E0; [lia|exact Hb0]. }
      assert (Hk : k <> O).
      { intros ->. change (n / b < b ^ 0) in Hd. rewrite N.pow_0_r in Hd. lia. }
      repeat split.
      * rewrite number_snoc, E. rewrite N.mul_comm. symmetry. now apply N.div_mod.
      * apply Forall_app. split; [exact F|]. repeat constructor. now apply N.mod_lt.
      * intros _ E0. now apply app_eq_nil in E0 as [_ E0].
      * intros t E0. exfalso. specialize (G Hk). destruct (digits k b (n / b)) as [|d ds] eqn:Ed; [congruence|].
        cbn [app] in E0. injection E0 as -> _. specialize (Z ds eq_refl). subst ds.
        cbn in E. now apply Hnz.
Qed.

Lemma size_bound : forall b n, 2 <= b -> n < b ^ N.of_nat (S (N.size_nat n)).
Proof.
  intros b n Hb. rewrite Nat2N.inj_succ.
  assert (H : n < 2 ^ N.of_nat (N.size_nat n)).
  { assert (E : N.of_nat (N.size_nat n) = N.size n).
    { destruct n as [|p]; [reflexivity|]. cbn [N.size_nat N.size].
      induction p as [p IH|p IH|]; cbn [Pos.size_nat Pos.size]; rewrite ?Nat2N.inj_succ, ?IH; reflexivity. }
    rewrite E. apply N.size_gt. }
  rewrite N.pow_succ_r'. set (s := N.of_nat (N.size_nat n)) in *.
  assert (H2 : 2 ^ s <= b ^ s) by (apply N.pow_le_mono_l; exact Hb). nia.
Qed.

(** The digit a character stands for. *)
Definition char_digit (c : N) : N := if c <? 58 then c - 48 else c - 55.
Definition hex_char (c : N) : Prop := 48 <= c < 58 \/ 65 <= c < 71.

Lemma digit_char_back : forall d, char_digit (digit_char d) = d.
Proof.
  intros d. unfold char_digit, digit_char. destruct (N.ltb_spec d 10).
  - destruct (N.ltb_spec (48 + d) 58); lia.
  - destruct (N.ltb_spec (55 + d) 58); lia.
Qed.

Lemma map_back : forall l, map char_digit (map digit_char l) = l.
Proof.
  induction l as [|d t IH]; [reflexivity|]. cbn [map]. now rewrite digit_char_back, IH.
Qed.

Definition value_of (base : N) (t : text) : N := number base (map char_digit t).

Lemma dec_value : forall n, value_of 10 (dec n) = n.
Proof.
  intros n. unfold value_of, dec. rewrite map_back.
  apply digits_facts; [lia|apply size_bound; lia].
Qed.

Lemma hex_value : forall n, value_of 16 (hex n) = n.
Proof.
  intros n. unfold value_of, hex. rewrite map_back.
  apply digits_facts; [lia|apply size_bound; lia].
Qed.

Lemma dec_chars : forall n, Forall (fun c => 48 <= c < 58) (dec n).
Proof.
  intros n. unfold dec. apply Forall_map.
  destruct (digits_facts (S (N.size_nat n)) 10 n) as (_ & F & _); [lia|apply size_bound; lia|].
  eapply Forall_impl; [|exact F]. intros d H. cbn beta in H. unfold digit_char.
  destruct (N.ltb_spec d 10); lia.
Qed.

Lemma dec_nonempty : forall n, dec n <> [].
Proof.
  intros n. unfold dec.
  destruct (digits_facts (S (N.size_nat n)) 10 n) as (_ & _ & G & _); [lia|apply size_bound; lia|].
  intros E. apply map_eq_nil in E. now apply G.
Qed.

Lemma hex_chars : forall n, Forall hex_char (hex n).
Proof.
  intros n. unfold hex. apply Forall_map.
  destruct (digits_facts (S (N.size_nat n)) 16 n) as (_ & F & _); [lia|apply size_bound; lia|].
  eapply Forall_impl; [|exact F]. intros d H. cbn beta in H. unfold digit_char, hex_char.
  destruct (N.ltb_spec d 10); lia.
Qed.

Lemma hex_nonempty : forall n, hex n <> [].
Proof.
  intros n. unfold hex.
  destruct (digits_facts (S (N.size_nat n)) 16 n) as (_ & _ & G & _); [lia|apply size_bound; lia|].
  intros E. apply map_eq_nil in E. now apply G.
Qed.

Lemma hex_lead : forall n t, hex n = 48 :: t -> t = [].
Proof.
  intros n t E. unfold hex in E.
  destruct (digits_facts (S (N.size_nat n)) 16 n) as (_ & F & _ & Z); [lia|apply size_bound; lia|].
  destruct (digits (S (N.size_nat n)) 16 n) as [|d ds]; [discriminate|]. cbn [map] in E.
  injection E as E1 <-.
  assert (d = 0).
  { unfold digit_char in E1. destruct (N.ltb_spec d 10); lia. }
  subst d. now rewrite (Z ds eq_refl).
Qed.

Lemma dec_inj : forall m n, dec m = dec n -> m = n.
Proof. intros m n E. rewrite <- (dec_value m), <- (dec_value n). now rewrite E. Qed.

Lemma hex_inj : forall m n, hex m = hex n -> m = n.
Proof. intros m n E. rewrite <- (hex_value m), <- (hex_value n). now rewrite E. Qed.

Lemma number_zeros : forall b k l, number b (repeat 0 k ++ l) = number b l.
Proof.
  intros b k l. unfold number. rewrite fold_left_app. f_equal.
  induction k as [|k IH]; [reflexivity|]. cbn [repeat fold_left]. now rewrite N.mul_0_l.
Qed.

Lemma map_repeat' : forall A B (f : A -> B) a k, map f (repeat a k) = repeat (f a) k.
Proof. intros A B f a k. induction k as [|k IH]; [reflexivity|]. cbn. now rewrite IH. Qed.

Lemma hex_016_value : forall n ds, hex_016 n = [48; 120] ++ ds -> value_of 16 ds = n.
Proof.
  intros n ds E. unfold hex_016 in E. cbv zeta in E. apply app_inv_head in E. subst ds.
  unfold value_of. rewrite map_app, map_repeat'. change (char_digit 48) with 0.
  rewrite number_zeros. apply hex_value.
Qed.

Lemma hex_016_inj : forall m n, hex_016 m = hex_016 n -> m = n.
Proof.
  intros m n E. assert (Em : exists ds, hex_016 m = [48; 120] ++ ds) by (eexists; reflexivity).
  destruct Em as (ds & Em). rewrite <- (hex_016_value m ds Em). apply (hex_016_value n). congruence.
Qed.

(** * Texts with their commas inside brackets *)

(** [inside d t]: reading [t] with [d] brackets open; the number open at the end,
    or [None] if outside all brackets a comma or a closing bracket occurs. *)
Definition opens (c : N) : bool := (c =? 40) || (c =? 91) || (c =? 123).
Definition closes (c : N) : bool := (c =? 41) || (c =? 93) || (c =? 125).

Fixpoint inside (d : nat) (t : text) : option nat :=
  match t with
  | [] => Some d
  | c :: t =>
      if opens c then inside (S d) t
      else if closes c then match d with O => None | S d => inside d t end
      else if c =? 44 then match d with O => None | _ => inside d t end
      else inside d t
  end.

Definition closed (t : text) : Prop := inside O t = Some O.

(** Characters that end a closed text. *)
Definition stop (c : N) : bool := (c =? 44) || closes c.
Definition stopped (t : text) : Prop := match t with [] => True | c :: _ => stop c = true end.

Lemma inside_app : forall a b d,
  inside d (a ++ b) = match inside d a with Some e => inside e b | None => None end.
Proof.
  induction a as [|c a IH]; intros b d; [reflexivity|]. cbn [app inside].
  destruct (opens c); [apply IH|]. destruct (closes c); [destruct d; [reflexivity|apply IH]|].
  destruct (c =? 44); [destruct d; [reflexivity|apply IH]|apply IH].
Qed.

Lemma inside_deeper : forall t d e k, inside d t = Some e -> inside (k + d) t = Some (k + e)%nat.
Proof.
  induction t as [|c t IH]; intros d e k E; cbn [inside] in *; [congruence|].
  destruct (opens c); [rewrite plus_n_Sm; now apply IH|].
  destruct (closes c).
  { destruct d; [discriminate|]. rewrite <- plus_n_Sm. now apply IH. }
  destruct (c =? 44); [|now apply IH].
  destruct d; [discriminate|]. rewrite <- plus_n_Sm. rewrite plus_n_Sm. now apply IH.
Qed.

Lemma inside_closed : forall t d, closed t -> inside d t = Some d.
Proof.
  intros t d H. pose proof (inside_deeper t O O d H) as E. now rewrite Nat.add_0_r in E.
Qed.

Lemma stop_outside : forall c t, stop c = true -> inside O (c :: t) = None.
Proof.
  intros c t H. cbn [inside]. unfold stop in H. apply orb_prop in H as [H|H].
  - apply N.eqb_eq in H. subst c. reflexivity.
  - unfold opens. unfold closes in *. destruct (c =? 40) eqn:E; [apply N.eqb_eq in E; subst; discriminate|].
    destruct (c =? 91) eqn:E1; [apply N.eqb_eq in E1; subst; discriminate|].
    destruct (c =? 123) eqn:E2; [apply N.eqb_eq in E2; subst; discriminate|].
    cbn [orb]. now rewrite H.
Qed.

Lemma app_cases : forall A (a b c d : list A), a ++ b = c ++ d ->
  (a = c /\ b = d) \/ (exists x t, a = c ++ x :: t /\ d = x :: t ++ b) \/
  (exists x t, c = a ++ x :: t /\ b = x :: t ++ d).
Proof.
  induction a as [|x a IH]; intros b c d E.
  - destruct c as [|y c]; [now left|]. right. right. cbn in E. subst b. now exists y, c.
  - destruct c as [|y c]; cbn in E.
    + subst d. right. left. now exists x, a.
    + injection E as <- E. destruct (IH b c d E) as [[-> ->]|[(z & t & -> & ->)|(z & t & -> & ->)]].
      * now left.
      * right. left. now exists z, t.
      * right. right. now exists z, t.
Qed.

(** Where a closed text ends can be seen. *)
Lemma closed_end : forall v w r s, closed v -> closed w -> stopped r -> stopped s ->
  v ++ r = w ++ s -> v = w /\ r = s.
Proof.
  intros v w r s Hv Hw Hr Hs E.
  destruct (app_cases _ _ _ _ _ E) as [H|[(x & t & -> & ->)|(x & t & -> & ->)]]; [exact H|exfalso..].
  - unfold closed in Hv. rewrite inside_app, Hw in Hv.
    rewrite stop_outside in Hv by exact Hs. discriminate.
  - unfold closed in Hw. rewrite inside_app, Hv in Hw.
    rewrite stop_outside in Hw by exact Hr. discriminate.
Qed.

Definition neutral (c : N) : bool := negb (opens c || closes c || (c =? 44)).

Lemma inside_neutral : forall t d, forallb neutral t = true -> inside d t = Some d.
Proof.
  induction t as [|c t IH]; intros d H; [reflexivity|]. cbn [forallb] in H.
  apply andb_prop in H as [Hc Ht]. cbn [inside]. unfold neutral in Hc.
  destruct (opens c), (closes c), (c =? 44); try discriminate. now apply IH.
Qed.

Lemma neutral_closed : forall t, forallb neutral t = true -> closed t.
Proof. intros t H. now apply inside_neutral. Qed.

Lemma closed_app : forall a b, closed a -> closed b -> closed (a ++ b).
Proof. intros a b Ha Hb. unfold closed. now rewrite inside_app, Ha. Qed.

Lemma dec_closed : forall n, closed (dec n).
Proof.
  intros n. apply neutral_closed. apply forallb_forall. intros c H.
  pose proof (dec_chars n) as F. rewrite Forall_forall in F. specialize (F c H).
  unfold neutral, opens, closes.
  repeat match goal with |- context [c =? ?k] => destruct (N.eqb_spec c k); [lia|] end. reflexivity.
Qed.

Lemma hex_closed : forall n, closed (hex n).
Proof.
  intros n. apply neutral_closed. apply forallb_forall. intros c H.
  pose proof (hex_chars n) as F. rewrite Forall_forall in F. specialize (F c H).
  unfold hex_char in F. unfold neutral, opens, closes.
  repeat match goal with |- context [c =? ?k] => destruct (N.eqb_spec c k); [lia|] end. reflexivity.
Qed.

Lemma hex_016_closed : forall n, closed (hex_016 n).
Proof.
  intros n. unfold hex_016. apply closed_app; [reflexivity|]. apply closed_app; [|apply hex_closed].
  apply neutral_closed. induction (14 - length (hex n))%nat as [|k IH]; [reflexivity|exact IH].
Qed.

Lemma inside_pad : forall t b d, inside d (pad b t) = inside d t.
Proof.
  induction t as [|c t IH]; intros b d; [reflexivity|]. cbn [pad].
  assert (E : inside d ((if b then [32; 32; 32; 32] else []) ++ c :: pad (c =? 10) t)
              = inside d (c :: pad (c =? 10) t)).
  { destruct b; reflexivity. }
  rewrite E. cbn [inside]. now rewrite !IH; destruct d; rewrite ?IH.
Qed.

Lemma pad_inj : forall s t b, pad b s = pad b t -> s = t.
Proof.
  induction s as [|c s IH]; intros t b E; destruct t as [|d t]; [reflexivity|..].
  - destruct b; discriminate.
  - destruct b; discriminate.
  - cbn [pad] in E. apply app_inv_head in E. injection E as <- E. f_equal. now apply IH in E.
Qed.

(** Padding line by line. *)
Lemma pad_line : forall s t b, pad b ((s ++ nl) ++ t) = pad b (s ++ nl) ++ pad true t.
Proof.
  induction s as [|c s IH]; intros t b; cbn [app pad].
  - destruct b; reflexivity.
  - rewrite IH. now rewrite <- app_assoc.
Qed.

(** * Structs *)

(** The fields that are there, each with what follows it. *)
Definition entries (sep : text) (l : list (text * option text)) : text :=
  flat_map (fun p => match snd p with Some v => fst p ++ [58; 32] ++ v ++ sep | None => [] end) l.

Definition colonless (n : text) : Prop := ~ In 58 n.

Lemma colon_split : forall n m r s, colonless n -> colonless m -> n ++ 58 :: r = m ++ 58 :: s -> n = m.
Proof.
  intros n m r s Hn Hm E.
  destruct (app_cases _ _ _ _ _ E) as [[H _]|[(x & t & -> & H)|(x & t & -> & H)]]; [exact H|exfalso..].
  - injection H as <- _. apply Hn. apply in_or_app. right. now left.
  - injection H as <- _. apply Hm. apply in_or_app. right. now left.
Qed.

(** The first field that is there, or the end. *)
Lemma entries_head : forall sep l tail,
  (exists n v r, In n (map fst l) /\ entries sep l ++ tail = n ++ 58 :: 32 :: v ++ r) \/
  entries sep l ++ tail = tail.
Proof.
  intros sep l tail. induction l as [|[n [v|]] t IH]; [now right|left|].
  - exists n, v, (sep ++ entries sep t ++ tail). split; [now left|].
    cbn [entries flat_map fst snd]. fold (entries sep t). now rewrite <- !app_assoc.
  - destruct IH as [(m & v & r & Hm & E)|E]; [left; exists m, v, r; split; [now right|exact E]|now right].
Qed.

Lemma entries_inj : forall sep tail ns os ps, stopped sep -> sep <> [] ->
  (forall n r s, In n ns -> tail <> n ++ 58 :: r ++ s) -> NoDup ns -> Forall colonless ns ->
  length os = length ns -> length ps = length ns ->
  Forall (fun o => forall v, o = Some v -> closed v) os ->
  Forall (fun o => forall v, o = Some v -> closed v) ps ->
  entries sep (combine ns os) ++ tail = entries sep (combine ns ps) ++ tail -> os = ps.
Proof.
  intros sep tail ns os ps Hsep Hne. revert os ps.
  induction ns as [|n ns IH]; intros os ps Htail Hnd Hcol Hlo Hlp Ho Hp E.
  - destruct os; [|discriminate]. now destruct ps.
  - destruct os as [|o os]; [discriminate|]. destruct ps as [|p ps]; [discriminate|].
    inversion_clear Hnd as [|? ? Hni Hnd']. inversion_clear Hcol as [|? ? Hc Hcol'].
    inversion_clear Ho as [|? ? Ho1 Ho']. inversion_clear Hp as [|? ? Hp1 Hp'].
    cbn [length] in Hlo, Hlp. injection Hlo as Hlo. injection Hlp as Hlp.
    assert (Htail' : forall m r s, In m ns -> tail <> m ++ 58 :: r ++ s).
    { intros m r s Hm. apply Htail. now right. }
    assert (Hno : forall v r (qs : list (option text)), length qs = length ns ->
              n ++ [58; 32] ++ v ++ r <> entries sep (combine ns qs) ++ tail).
    { intros v r qs Hl E1. destruct (entries_head sep (combine ns qs) tail) as [(m & u & s & Hm & E2)|E2].
      - rewrite E2 in E1. cbn [app] in E1.
        assert (Hm' : In m ns).
        { clear - Hm. revert qs Hm. induction ns as [|x ns IH]; intros [|q qs] Hm; cbn in Hm; try contradiction.
          destruct Hm as [->|Hm]; [now left|right; eapply IH; exact Hm]. }
        assert (n = m).
        { eapply colon_split; [exact Hc| |exact E1]. rewrite Forall_forall in Hcol'. now apply Hcol'. }
        subst m. contradiction.
      - rewrite E2 in E1. apply (Htail n [32] (v ++ r)); [now left|]. rewrite <- E1. reflexivity. }
    cbn [combine entries flat_map fst snd] in E. fold (entries sep (combine ns os)) in E.
    fold (entries sep (combine ns ps)) in E.
    destruct o as [v|], p as [w|].
    + rewrite <- !app_assoc in E. apply app_inv_head in E. apply app_inv_head in E.
      apply closed_end in E as [-> E].
      * apply app_inv_head in E. f_equal. now apply IH.
      * now apply Ho1.
      * now apply Hp1.
      * destruct sep; [congruence|exact Hsep].
      * destruct sep; [congruence|exact Hsep].
    + exfalso. rewrite <- !app_assoc in E. cbn [app] in E. eapply Hno; [exact Hlp|]. exact E.
    + exfalso. rewrite <- !app_assoc in E. cbn [app] in E. eapply Hno; [exact Hlo|]. symmetry. exact E.
    + f_equal. now apply IH.
Qed.

(** What the fields of a struct print: [None] for a field that is left out. *)
Definition shown : Type := list (string * option text).

Inductive prints (alt : bool) : list (string * fmt) -> shown -> Prop :=
| prints_nil : prints alt [] []
| prints_some : forall n v t fs l, v alt = Ok t -> prints alt fs l ->
    prints alt ((n, v) :: fs) ((n, Some t) :: l)
| prints_none : forall n fs l, prints alt fs l -> prints alt fs ((n, None) :: l).

Lemma prints_app : forall alt fs l fs' l', prints alt fs l -> prints alt fs' l' ->
  prints alt (fs ++ fs') (l ++ l').
Proof.
  intros alt fs l fs' l' H H'. induction H as [|n v t fs l E H IH|n fs l H IH]; cbn [app];
    [exact H'|now constructor..].
Qed.

Definition named (l : shown) : list (text * option text) := map (fun p => (txt (fst p), snd p)) l.

Definition some_shown (l : shown) : bool :=
  existsb (fun p => match snd p with Some _ => true | None => false end) l.

(** [debug_struct(name)..finish_non_exhaustive()]. *)
Definition open_struct (name : string) (alt : bool) (l : shown) : text :=
  txt name ++
  (if alt && some_shown l
   then txt " {" ++ nl ++ pad true (entries (txt "," ++ nl) (named l) ++ txt ".." ++ nl) ++ txt "}"
   else txt " { " ++ entries (txt ", ") (named l) ++ txt ".. }").

Lemma prints_plain : forall fs l, prints false fs l ->
  forall sep, exists t, fields_plain sep fs = Ok t /\
    t ++ txt ", " = (if some_shown l then txt sep else txt ", ") ++ entries (txt ", ") (named l).
Proof.
  intros fs l H. induction H as [|n v t fs l E H IH|n fs l H IH]; intros sep.
  - exists []. split; reflexivity.
  - destruct (IH ", "%string) as (r & Er & Eq). cbn [fields_plain]. rewrite E, Er. cbn [obind].
    eexists. split; [reflexivity|]. cbn [some_shown existsb snd orb named map entries flat_map fst].
    rewrite <- !app_assoc. f_equal. f_equal. cbn [app txt]. do 2 f_equal. f_equal.
    rewrite Eq. destruct (some_shown l); reflexivity.
  - exact (IH sep).
Qed.

Lemma prints_pretty : forall fs l, prints true fs l ->
  exists t, fields_pretty fs = Ok t /\
    forall tail, t ++ pad true tail = pad true (entries (txt "," ++ nl) (named l) ++ tail).
Proof.
  intros fs l H. induction H as [|n v t fs l E H IH|n fs l H IH].
  - exists []. split; reflexivity.
  - destruct IH as (r & Er & Eq). cbn [fields_pretty]. rewrite E, Er. cbn [obind].
    eexists. split; [reflexivity|]. intros tail.
    rewrite <- app_assoc, Eq. cbn [named map entries flat_map fst snd].
    fold (named l). fold (entries (txt "," ++ nl) (named l)).
    replace (txt n ++ txt ": " ++ t ++ txt "," ++ nl) with ((txt n ++ txt ": " ++ t ++ txt ",") ++ nl)
      by now rewrite <- !app_assoc.
    rewrite <- pad_line. now rewrite <- !app_assoc.
  - exact IH.
Qed.

Lemma prints_empty : forall alt fs l, prints alt fs l -> (some_shown l = false <-> fs = []).
Proof.
  intros alt fs l H. induction H as [|n v t fs l E H IH|n fs l H IH].
  - now split.
  - cbn. now split.
  - exact IH.
Qed.

Lemma open_struct_text : forall name alt fs l, prints alt fs l ->
  d_struct name fs false alt = Ok (open_struct name alt l).
Proof.
  intros name alt fs l H. unfold d_struct, open_struct. pose proof (prints_empty _ _ _ H) as Hz.
  destruct fs as [|f fs].
  - assert (Es : some_shown l = false) by now apply Hz. rewrite Es, andb_false_r.
    assert (Ee : forall sep, entries sep (named l) = []).
    { intros sep. clear - Es. induction l as [|[n [v|]] l IH]; [reflexivity|discriminate|apply IH; exact Es]. }
    now rewrite Ee.
  - assert (Es : some_shown l = true).
    { apply not_false_iff_true. intros Es. now apply Hz in Es. }
    rewrite Es, andb_true_r. destruct alt.
    + destruct (prints_pretty _ _ H) as (t & -> & Eq). cbn [obind]. do 2 f_equal.
      rewrite <- Eq. now rewrite <- !app_assoc.
    + destruct (prints_plain _ _ H " { "%string) as (t & -> & Eq). cbn [obind]. rewrite Es in Eq.
      do 2 f_equal. rewrite (app_assoc (txt " { ")), <- Eq. now rewrite <- app_assoc.
Qed.

(** Field names are identifiers. *)
Definition name_ok (s : string) : bool :=
  forallb (fun c => negb (c =? 58) && negb (c =? 46) && neutral c) (txt s)
  && match txt s with [] => false | _ => true end.

Fixpoint distinct (l : list string) : bool :=
  match l with [] => true | s :: t => negb (existsb (String.eqb s) t) && distinct t end.

Definition names_ok (l : list string) : bool := forallb name_ok l && distinct l.

Lemma txt_inj : forall s t, txt s = txt t -> s = t.
Proof.
  intros s t E. rewrite <- (string_of_list_ascii_of_string s), <- (string_of_list_ascii_of_string t).
  f_equal. unfold txt in E. revert E. generalize (list_ascii_of_string s), (list_ascii_of_string t).
  intros l. induction l as [|a l IH]; intros [|b m] E; try discriminate; [reflexivity|].
  cbn [map] in E. injection E as E1 E2. f_equal; [|now apply IH].
  rewrite <- (ascii_N_embedding a), <- (ascii_N_embedding b). now rewrite E1.
Qed.

Lemma names_ok_facts : forall ns, names_ok ns = true ->
  NoDup (map txt ns) /\ Forall colonless (map txt ns) /\
  Forall (fun n => exists c t, n = c :: t /\ c <> 46) (map txt ns) /\
  Forall (fun n => forallb neutral n = true) (map txt ns).
Proof.
  intros ns H. unfold names_ok in H. apply andb_prop in H as [Hn Hd].
  assert (Hall : forall s, In s ns -> name_ok s = true) by now apply forallb_forall.
  split; [|repeat split; apply Forall_map; apply Forall_forall; intros s Hs; specialize (Hall s Hs);
             unfold name_ok in Hall; apply andb_prop in Hall as [Ha He]; rewrite forallb_forall in Ha].
  - clear Hn Hall. induction ns as [|s ns IH]; [constructor|]. cbn [distinct] in Hd.
    apply andb_prop in Hd as [H1 H2]. cbn [map]. constructor; [|now apply IH].
    intros Hin. apply in_map_iff in Hin as (t & E & Ht). apply txt_inj in E. subst t.
    apply negb_true_iff in H1. assert (existsb (String.eqb s) ns = true).
    { apply existsb_exists. exists s. split; [exact Ht|apply String.eqb_refl]. }
    congruence.
  - intros Hin. specialize (Ha 58 Hin). discriminate.
  - destruct (txt s) as [|c t]; [discriminate|]. exists c, t. split; [reflexivity|].
    specialize (Ha c (or_introl eq_refl)). apply andb_prop in Ha as [Ha _].
    apply andb_prop in Ha as [_ Ha]. intros ->. discriminate.
  - apply forallb_forall. intros c Hc. specialize (Ha c Hc). now apply andb_prop in Ha as [_ Ha].
Qed.

Definition all_closed (l : shown) : Prop :=
  Forall (fun p => forall v, snd p = Some v -> closed v) l.

Lemma named_combine : forall l, named l = combine (map txt (map fst l)) (map snd l).
Proof. induction l as [|[n o] l IH]; [reflexivity|]. cbn. now rewrite <- IH. Qed.

Lemma shown_combine : forall l : shown, l = combine (map fst l) (map snd l).
Proof. induction l as [|[n o] l IH]; [reflexivity|]. cbn. now rewrite <- IH. Qed.

Lemma named_inj : forall sep tail l m, stopped sep -> sep <> [] ->
  (forall c t, tail <> c :: t \/ c = 46) ->
  names_ok (map fst l) = true -> map fst l = map fst m -> all_closed l -> all_closed m ->
  entries sep (named l) ++ tail = entries sep (named m) ++ tail -> l = m.
Proof.
  intros sep tail l m Hs Hne Ht Hn Em Hl Hm E.
  destruct (names_ok_facts _ Hn) as (Hd & Hc & Hh & _).
  rewrite !named_combine, <- Em in E.
  apply entries_inj in E; try assumption.
  - rewrite (shown_combine l), (shown_combine m). now rewrite Em, E.
  - intros n r s Hin E'. rewrite Forall_forall in Hh. destruct (Hh n Hin) as (c & t & -> & Hc46).
    destruct (Ht c (t ++ 58 :: r ++ s)) as [H|H]; [now apply H|contradiction].
  - now rewrite !map_length.
  - rewrite !map_length. rewrite <- (map_length fst m), <- Em. now rewrite map_length.
  - apply Forall_map. exact Hl.
  - apply Forall_map. exact Hm.
Qed.

Lemma open_struct_inj : forall name alt l m,
  names_ok (map fst l) = true -> map fst l = map fst m -> all_closed l -> all_closed m ->
  open_struct name alt l = open_struct name alt m -> l = m.
Proof.
  intros name alt l m Hn Em Hl Hm E. unfold open_struct in E. apply app_inv_head in E.
  destruct (alt && some_shown l), (alt && some_shown m); try discriminate E.
  - cbn [txt list_ascii_of_string map app] in E. injection E as E.
    change [125] with (txt "}") in E. apply app_inv_tail in E. apply pad_inj in E.
    eapply named_inj; [| | |exact Hn|exact Em|exact Hl|exact Hm|exact E].
    + reflexivity.
    + discriminate.
    + intros c t. destruct (N.eq_dec c 46) as [->|Hc]; [now right|left]. intros H. cbn in H. congruence.
  - apply app_inv_head in E.
    eapply named_inj; [| | |exact Hn|exact Em|exact Hl|exact Hm|exact E].
    + reflexivity.
    + discriminate.
    + intros c t. destruct (N.eq_dec c 46) as [->|Hc]; [now right|left]. intros H. cbn in H. congruence.
Qed.

(** [inside] for the pieces of a struct or list: they leave one bracket open. *)
Lemma inside_entries : forall sep l d, (exists s, sep = 44 :: s /\ forallb neutral s = true) ->
  Forall (fun n => forallb neutral n = true) (map fst l) ->
  Forall (fun p => forall v, snd p = Some v -> closed v) l ->
  inside (S d) (entries sep l) = Some (S d).
Proof.
  intros sep l d (s & -> & Hs) Hn Hc. induction l as [|[n [v|]] l IH]; [reflexivity|..].
  - cbn [entries flat_map fst snd]. fold (entries (44 :: s) l).
    inversion_clear Hn as [|? ? Hn1 Hn']. inversion_clear Hc as [|? ? Hc1 Hc'].
    cbn [fst] in Hn1. rewrite <- !app_assoc, inside_app, (inside_neutral n _ Hn1). cbn iota.
    rewrite inside_app. change (inside (S d) [58; 32]) with (Some (S d)). cbn iota.
    rewrite inside_app, (inside_closed v) by now apply Hc1. cbn iota.
    rewrite inside_app. change (inside (S d) (44 :: s)) with (inside (S d) s).
    rewrite (inside_neutral s _ Hs). now apply IH.
  - inversion_clear Hn as [|? ? Hn1 Hn']. inversion_clear Hc as [|? ? Hc1 Hc']. now apply IH.
Qed.

Lemma open_struct_closed : forall name alt l, forallb neutral (txt name) = true ->
  names_ok (map fst l) = true -> all_closed l -> closed (open_struct name alt l).
Proof.
  intros name alt l Hname Hn Hl. unfold closed, open_struct.
  destruct (names_ok_facts _ Hn) as (_ & _ & _ & Hne).
  assert (H1 : Forall (fun n => forallb neutral n = true) (map fst (named l))).
  { unfold named. rewrite map_map. cbn [fst]. now rewrite <- (map_map fst txt). }
  assert (H2 : Forall (fun p : text * option text => forall v, snd p = Some v -> closed v) (named l)).
  { apply Forall_map. exact Hl. }
  rewrite inside_app, inside_neutral by exact Hname.
  destruct (alt && some_shown l).
  - rewrite (inside_app (txt " {")). change (inside 0 (txt " {")) with (Some 1%nat). cbn iota.
    rewrite inside_app. change (inside 1 nl) with (Some 1%nat). cbn iota.
    rewrite inside_app, inside_pad, inside_app, inside_entries; try assumption; [reflexivity|].
    now exists nl.
  - rewrite inside_app. change (inside 0 (txt " { ")) with (Some 1%nat). cbn iota.
    rewrite inside_app, inside_entries; try assumption; [reflexivity|]. now exists [32].
Qed.

(** [debug_struct(name)..finish()] with at least one field. *)
Definition somes (l : list (string * text)) : shown := map (fun p => (fst p, Some (snd p))) l.

Definition joined (l : list (string * text)) : text :=
  match l with
  | [] => []
  | (n, v) :: t =>
      txt n ++ txt ": " ++ v ++
      flat_map (fun p => txt ", " ++ txt (fst p) ++ txt ": " ++ snd p) t
  end.

Definition full_struct (name : string) (alt : bool) (l : list (string * text)) : text :=
  txt name ++
  (if alt then txt " {" ++ nl ++ pad true (entries (txt "," ++ nl) (named (somes l))) ++ txt "}"
   else txt " { " ++ joined l ++ txt " }").

Lemma prints_joined : forall l fs sep, prints false fs (somes l) -> l <> [] ->
  fields_plain sep fs = Ok (txt sep ++ joined l).
Proof.
  assert (H : forall l fs, prints false fs (somes l) ->
            fields_plain ", " fs = Ok (flat_map (fun p => txt ", " ++ txt (fst p) ++ txt ": " ++ snd p) l)).
  { induction l as [|[n v] l IH]; intros fs H; inversion H as [|n' v' t' fs' l' E H'|]; subst; [reflexivity|].
    cbn [fields_plain flat_map fst snd]. rewrite E, (IH fs' H'). cbn [obind]. now rewrite <- !app_assoc. }
  intros [|[n v] l] fs sep Hp Hne; [congruence|]. inversion Hp as [|n' v' t' fs' l' E H'|]; subst.
  cbn [fields_plain joined]. rewrite E, (H l fs' H'). cbn [obind]. now rewrite <- ?app_assoc.
Qed.

Lemma full_struct_text : forall name alt fs l, l <> [] -> prints alt fs (somes l) ->
  d_struct name fs true alt = Ok (full_struct name alt l).
Proof.
  intros name alt fs l Hne H. unfold d_struct, full_struct.
  destruct fs as [|f fs].
  { destruct l as [|[n v] l]; [congruence|]. inversion H. }
  destruct alt.
  - destruct (prints_pretty _ _ H) as (t & -> & Eq). cbn [obind]. specialize (Eq []).
    rewrite app_nil_r in Eq. cbn [pad] in Eq. rewrite app_nil_r in Eq. now rewrite Eq.
  - rewrite (prints_joined _ _ _ H Hne). cbn [obind]. now rewrite <- app_assoc.
Qed.

Lemma flat_join_inj : forall l m, map fst l = map fst m ->
  Forall (fun p : string * text => closed (snd p)) l -> Forall (fun p => closed (snd p)) m ->
  flat_map (fun p => txt ", " ++ txt (fst p) ++ txt ": " ++ snd p) l =
  flat_map (fun p => txt ", " ++ txt (fst p) ++ txt ": " ++ snd p) m -> l = m.
Proof.
  induction l as [|[n v] l IH]; intros [|[k w] m] En Hl Hm E; try discriminate En; [reflexivity|].
  cbn [map fst] in En. injection En as <- En.
  inversion_clear Hl as [|? ? Hv Hl']. inversion_clear Hm as [|? ? Hw Hm']. cbn [snd] in Hv, Hw.
  cbn [flat_map fst snd] in E. rewrite <- !app_assoc in E. do 3 apply app_inv_head in E.
  assert (Hst : forall q : list (string * text),
            stopped (flat_map (fun p => txt ", " ++ txt (fst p) ++ txt ": " ++ snd p) q)).
  { intros [|p q]; [exact I|reflexivity]. }
  apply closed_end in E as [-> E]; try assumption; [|apply Hst..].
  f_equal. now apply IH.
Qed.

Lemma joined_inj : forall l m, map fst l = map fst m ->
  Forall (fun p => closed (snd p)) l -> Forall (fun p => closed (snd p)) m ->
  joined l = joined m -> l = m.
Proof.
  intros [|[n v] l] [|[k w] m] En Hl Hm E; try discriminate En; [reflexivity|].
  apply flat_join_inj; try assumption. cbn [flat_map fst snd]. rewrite <- !app_assoc. f_equal.
  exact E.
Qed.

Lemma somes_inj : forall l m, somes l = somes m -> l = m.
Proof.
  induction l as [|[n v] l IH]; intros [|[k w] m] E; try discriminate; [reflexivity|].
  cbn in E. injection E as -> -> E. f_equal. now apply IH.
Qed.

Lemma somes_names : forall l, map fst (somes l) = map fst l.
Proof. intros l. unfold somes. rewrite map_map. reflexivity. Qed.

Lemma somes_closed : forall l, Forall (fun p => closed (snd p)) l -> all_closed (somes l).
Proof.
  intros l H. unfold all_closed, somes. apply Forall_map. eapply Forall_impl; [|exact H].
  intros [n v] Hv w E. cbn in *. now injection E as <-.
Qed.

Lemma full_struct_inj : forall name alt l m,
  names_ok (map fst l) = true -> map fst l = map fst m ->
  Forall (fun p => closed (snd p)) l -> Forall (fun p => closed (snd p)) m ->
  full_struct name alt l = full_struct name alt m -> l = m.
Proof.
  intros name alt l m Hn Em Hl Hm E. unfold full_struct in E. apply app_inv_head in E. destruct alt.
  - do 2 apply app_inv_head in E. apply app_inv_tail in E. apply pad_inj in E.
    apply somes_inj. apply (named_inj (txt "," ++ nl) []).
    + reflexivity.
    + discriminate.
    + intros c t. now left.
    + now rewrite somes_names.
    + now rewrite !somes_names.
    + now apply somes_closed.
    + now apply somes_closed.
    + now rewrite E.
  - apply app_inv_head in E. apply app_inv_tail in E. now apply joined_inj.
Qed.

Lemma full_struct_closed : forall name alt l, forallb neutral (txt name) = true ->
  names_ok (map fst l) = true -> Forall (fun p => closed (snd p)) l ->
  closed (full_struct name alt l).
Proof.
  intros name alt l Hname Hn Hl. unfold closed, full_struct.
  destruct (names_ok_facts _ Hn) as (_ & _ & _ & Hne).
  rewrite inside_app, inside_neutral by exact Hname. destruct alt.
  - rewrite (inside_app (txt " {")). change (inside 0 (txt " {")) with (Some 1%nat). cbn iota.
    rewrite inside_app. change (inside 1 nl) with (Some 1%nat). cbn iota.
    rewrite inside_app, inside_pad, inside_entries; [reflexivity|now exists nl|..].
    + unfold named, somes. rewrite !map_map. cbn [fst]. now rewrite <- (map_map fst txt).
    + apply Forall_map. now apply somes_closed.
  - rewrite inside_app. change (inside 0 (txt " { ")) with (Some 1%nat). cbn iota.
    rewrite inside_app.
    assert (E : inside 1 (joined l) = Some 1%nat); [|now rewrite E].
    assert (Ht : forall l, Forall (fun n => forallb neutral n = true) (map txt (map fst l)) ->
              Forall (fun p : string * text => closed (snd p)) l ->
              inside 1 (flat_map (fun p => txt ", " ++ txt (fst p) ++ txt ": " ++ snd p) l) = Some 1%nat).
    { clear. induction l as [|[n v] l IH]; intros Hn Hl; [reflexivity|]. cbn [map fst] in Hn.
      inversion_clear Hn as [|? ? Hn1 Hn']. inversion_clear Hl as [|? ? Hv Hl'].
      cbn [flat_map fst snd]. rewrite <- !app_assoc, inside_app.
      change (inside 1 (txt ", ")) with (Some 1%nat). cbn iota.
      rewrite inside_app, (inside_neutral (txt n) _ Hn1). cbn iota. rewrite inside_app.
      change (inside 1 (txt ": ")) with (Some 1%nat). cbn iota.
      rewrite inside_app, (inside_closed v) by exact Hv. now apply IH. }
    destruct l as [|[n v] l]; [reflexivity|]. cbn [map fst] in Hne.
    inversion_clear Hne as [|? ? Hn1 Hn']. inversion_clear Hl as [|? ? Hv Hl']. cbn [joined].
    rewrite inside_app, (inside_neutral (txt n) _ Hn1). cbn iota. rewrite inside_app.
    change (inside 1 (txt ": ")) with (Some 1%nat). cbn iota.
    rewrite inside_app, (inside_closed v) by exact Hv. now apply Ht.
Qed.

(** * Lists *)

Definition list_text (alt : bool) (ts : list text) : text :=
  match ts with
  | [] => txt "[]"
  | t :: r =>
      if alt then txt "[" ++ nl ++ pad true (flat_map (fun t => t ++ txt "," ++ nl) ts) ++ txt "]"
      else txt "[" ++ (t ++ flat_map (fun t => txt ", " ++ t) r) ++ txt "]"
  end.

Lemma d_list_text : forall alt vs ts, Forall2 (fun v t => v alt = Ok t) vs ts ->
  d_list vs alt = Ok (list_text alt ts).
Proof.
  intros alt vs ts H. unfold d_list. destruct alt.
  - assert (E : items_pretty vs = Ok (pad true (flat_map (fun t => t ++ txt "," ++ nl) ts))).
    { induction H as [|v t vs ts E H IH]; [reflexivity|]. cbn [items_pretty flat_map]. rewrite E, IH.
      cbn [obind]. rewrite (app_assoc t), pad_line. reflexivity. }
    rewrite E. cbn [obind]. destruct H; reflexivity.
  - destruct H as [|v t vs ts Ev H]; [reflexivity|].
    assert (E' : items_plain ", " vs = Ok (flat_map (fun t => txt ", " ++ t) ts)).
    { clear - H. induction H as [|v t vs ts E H IH]; [reflexivity|]. cbn [items_plain flat_map].
      rewrite E, IH. cbn [obind]. now rewrite <- app_assoc. }
    cbn [items_plain]. rewrite Ev, E'. cbn [obind list_text]. reflexivity.
Qed.

Lemma list_text_inj : forall alt ts us, Forall closed ts -> Forall closed us ->
  Forall (fun t => t <> []) ts -> Forall (fun t => t <> []) us ->
  list_text alt ts = list_text alt us -> ts = us.
Proof.
  intros alt ts us Ht Hu Nt Nu E.
  assert (Hf : forall a b, Forall closed a -> Forall closed b ->
            flat_map (fun t => t ++ txt "," ++ nl) a = flat_map (fun t => t ++ txt "," ++ nl) b -> a = b).
  { clear. induction a as [|v a IH]; intros [|w b] Ha Hb E; [reflexivity|..].
    - cbn in E. now destruct w.
    - cbn in E. now destruct v.
    - inversion_clear Ha as [|? ? Hv Ha']. inversion_clear Hb as [|? ? Hw Hb'].
      cbn [flat_map] in E. rewrite <- !app_assoc in E.
      apply closed_end in E as [-> E]; try assumption; [|reflexivity..].
      do 2 apply app_inv_head in E. f_equal. now apply IH. }
  assert (Hg : forall a b, Forall closed a -> Forall closed b ->
            flat_map (fun t => txt ", " ++ t) a = flat_map (fun t => txt ", " ++ t) b -> a = b).
  { clear. induction a as [|v a IH]; intros [|w b] Ha Hb E; try discriminate E; [reflexivity|].
    inversion_clear Ha as [|? ? Hv Ha']. inversion_clear Hb as [|? ? Hw Hb'].
    cbn [flat_map] in E. rewrite <- !app_assoc in E. apply app_inv_head in E.
    assert (Hs : forall q, stopped (flat_map (fun t => txt ", " ++ t) q)) by (intros [|? ?]; [exact I|reflexivity]).
    apply closed_end in E as [-> E]; try assumption; [|apply Hs..]. f_equal. now apply IH. }
  destruct ts as [|t ts], us as [|u us]; cbn [list_text] in E; [reflexivity|..].
  - exfalso. inversion_clear Nu as [|? ? Nu1 Nu']. inversion_clear Hu as [|? ? Hu1 Hu'].
    destruct alt; [discriminate E|].
    cbn [txt list_ascii_of_string map app N_of_ascii] in E. injection E as E.
    destruct u as [|c u]; [congruence|]. cbn [app] in E. injection E as <- _.
    unfold closed in Hu1. rewrite stop_outside in Hu1; [discriminate|reflexivity].
  - exfalso. inversion_clear Nt as [|? ? Nt1 Nt']. inversion_clear Ht as [|? ? Ht1 Ht'].
    destruct alt; [discriminate E|].
    cbn [txt list_ascii_of_string map app N_of_ascii] in E. injection E as E.
    destruct t as [|c t]; [congruence|]. cbn [app] in E. injection E as -> _.
    unfold closed in Ht1. rewrite stop_outside in Ht1; [discriminate|reflexivity].
  - destruct alt.
    + do 2 apply app_inv_head in E. apply app_inv_tail in E. apply pad_inj in E. now apply Hf.
    + apply app_inv_head in E. apply app_inv_tail in E. apply Hg; try assumption.
      cbn [flat_map]. rewrite <- !app_assoc. f_equal. exact E.
Qed.

Lemma list_text_closed : forall alt ts, Forall closed ts -> closed (list_text alt ts).
Proof.
  intros alt ts H. unfold list_text.
  assert (Hf : forall a, Forall closed a -> inside 1 (flat_map (fun t => t ++ txt "," ++ nl) a) = Some 1%nat).
  { clear. induction a as [|v a IH]; intros Ha; [reflexivity|]. inversion_clear Ha as [|? ? Hv Ha'].
    cbn [flat_map]. rewrite <- !app_assoc, inside_app, (inside_closed v) by exact Hv. cbn iota.
    rewrite (app_assoc (txt ",")), inside_app.
    change (inside 1 (txt "," ++ nl)) with (Some 1%nat). now apply IH. }
  assert (Hg : forall a, Forall closed a -> inside 1 (flat_map (fun t => txt ", " ++ t) a) = Some 1%nat).
  { clear. induction a as [|v a IH]; intros Ha; [reflexivity|]. inversion_clear Ha as [|? ? Hv Ha'].
    cbn [flat_map]. rewrite <- !app_assoc, inside_app.
    change (inside 1 (txt ", ")) with (Some 1%nat). cbn iota.
    rewrite inside_app, (inside_closed v) by exact Hv. now apply IH. }
  destruct ts as [|t r]; [reflexivity|]. unfold closed. destruct alt.
  - rewrite inside_app. change (inside 0 (txt "[")) with (Some 1%nat). cbn iota.
    rewrite inside_app. change (inside 1 nl) with (Some 1%nat). cbn iota.
    rewrite inside_app, inside_pad, Hf by exact H. reflexivity.
  - inversion_clear H as [|? ? H1 H2].
    rewrite inside_app. change (inside 0 (txt "[")) with (Some 1%nat). cbn iota.
    rewrite inside_app, inside_app, (inside_closed t) by exact H1. cbn iota. rewrite Hg by exact H2. reflexivity.
Qed.

(** * One-field tuples *)

Definition tuple_text (name : string) (alt : bool) (t : text) : text :=
  txt name ++ txt "(" ++ (if alt then nl ++ pad true (t ++ txt "," ++ nl) else t) ++ txt ")".

Lemma d_tuple1_text : forall name v alt t, v alt = Ok t ->
  d_tuple1 name v alt = Ok (tuple_text name alt t).
Proof. intros name v alt t E. unfold d_tuple1. now rewrite E. Qed.

Lemma tuple_text_inj : forall name alt t u,
  tuple_text name alt t = tuple_text name alt u -> t = u.
Proof.
  intros name alt t u E. unfold tuple_text in E. do 2 apply app_inv_head in E.
  apply app_inv_tail in E. destruct alt; [|exact E].
  apply app_inv_head in E. apply pad_inj in E. now apply app_inv_tail in E.
Qed.

Lemma tuple_text_closed : forall name alt t, forallb neutral (txt name) = true -> closed t ->
  closed (tuple_text name alt t).
Proof.
  intros name alt t Hn Ht. unfold closed, tuple_text.
  rewrite inside_app, inside_neutral by exact Hn. rewrite inside_app.
  change (inside 0 (txt "(")) with (Some 1%nat). cbn iota. rewrite inside_app. destruct alt.
  - rewrite inside_app. change (inside 1 nl) with (Some 1%nat). cbn iota.
    rewrite inside_pad, inside_app, (inside_closed t) by exact Ht. reflexivity.
  - rewrite (inside_closed t) by exact Ht. reflexivity.
Qed.
