(** The parsers refuse exactly what Faults.v says, with the error it says. *)
From Coq Require Import NArith List Bool Lia.
From Verif Require Import Base BaseFacts Types Platform Config Bits ConfFacts Records Sample
  Record Attr Flat Refine RefTop Wire WireAttr Codec Roundtrip RtSample RtRecord AcceptFacts AcceptParts
  AcceptSample AcceptRecord Faults.
Import ListNotations.
Open Scope N_scope.

Lemma number_from : forall o l, number o l = from_order o l.
Proof.
  assert (H : forall l, digits l = from_le l) by (induction l as [|b l IH]; cbn; [|rewrite IH]; reflexivity).
  intros [] l; apply H.
Qed.

Lemma native_eqb : forall o h, (in_host o h 0 =? 0) = order_eqb o h.
Proof. now intros [] []. Qed.

(** [f] does with every data what [p] says; [V] is known of its result. *)
Definition Lex (env : fenv) {B : Type} (f : F B) (V : list N -> B -> Prop) (p : part) : Prop :=
  forall l pos, bytes l ->
  match f env l pos with
  | FOk b l' pos' _ => V l b /\ exists n, p (fe_fin env) l = Takes n /\ n <= len l /\ l' = drop n l /\ pos' = pos + n
  | FErr e _ _ _ => p (fe_fin env) l = Fault e
  end.

Notation yes := (fun _ _ => True).

Section Lex.
Context (env : fenv).
Notation L := (Lex env).

Lemma Lex_conv : forall B (f : F B) V (W : list N -> B -> Prop) p, L f V p -> (forall l b, V l b -> W l b) -> L f W p.
Proof.
  intros B f V W p H HV l pos Hb. specialize (H l pos Hb). destruct (f env l pos); [|exact H].
  split; [now apply HV|apply H].
Qed.

Lemma Lex_ext : forall B (f : F B) V p q, L f V p ->
  (forall d, bytes d -> p (fe_fin env) d = q (fe_fin env) d) -> L f V q.
Proof.
  intros B f V p q H E l pos Hb. specialize (H l pos Hb). rewrite (E l Hb) in H. exact H.
Qed.

Lemma Lex_ret : forall B (b : B) (V : list N -> B -> Prop), (forall l, V l b) -> L (fret b) V nothing.
Proof.
  intros B b V H l pos Hb. cbn. split; [apply H|]. exists 0. rewrite drop_0, N.add_0_r.
  repeat split. apply N.le_0_l.
Qed.

Lemma Lex_fail : forall B (V : list N -> B -> Prop) e, L (ffail e) V (refused e).
Proof. intros B V e l pos Hb. reflexivity. Qed.

Lemma Lex_fail_also : forall B (V : list N -> B -> Prop) e p, L (ffail e) V (also (refused e) p).
Proof. intros B V e p l pos Hb. reflexivity. Qed.

Lemma Lex_dep : forall A B (f : F A) (k : A -> F B) V p (q : list N -> part),
  L f V p -> (forall l b, bytes l -> V l b -> L (k b) yes (q l)) ->
  L (fbind f k) yes (fun e d => also p (q d) e d).
Proof.
  intros A B f k V p q Hf Hk l pos Hb. specialize (Hf l pos Hb). unfold fbind.
  destruct (f env l pos) as [b l1 pos1 ev1|e l1 pos1 ev1].
  - destruct Hf as [HV (n & Hp & Hn & -> & ->)].
    specialize (Hk l b Hb HV (drop n l) (pos + n) (bytes_drop _ _ Hb)). unfold also. rewrite Hp.
    destruct (k b env (drop n l) (pos + n)) as [c l2 pos2 ev2|e l2 pos2 ev2].
    + destruct Hk as [_ (j & -> & Hj & -> & ->)]. split; [exact I|]. exists (n + j).
      rewrite len_drop in Hj. rewrite drop_drop, N.add_assoc. repeat split. lia.
    + now rewrite Hk.
  - unfold also. now rewrite Hf.
Qed.

Lemma Lex_bind : forall A B (f : F A) (k : A -> F B) V p q,
  L f V p -> (forall b, L (k b) yes q) -> L (fbind f k) yes (also p q).
Proof. intros A B f k V p q Hf Hk. apply (Lex_dep _ _ f k V p (fun _ => q) Hf). auto. Qed.

Lemma Lex_map : forall A B (f : F A) (g : A -> B) V p, L f V p -> L (x <~ f ;; fret (g x)) yes p.
Proof.
  intros A B f g V p H. eapply Lex_ext.
  - eapply Lex_bind; [exact H|]. intros b. now apply Lex_ret.
  - intros d _. unfold also, nothing. destruct (p _ d); [|reflexivity]. now rewrite N.add_0_r.
Qed.

Lemma Lex_cfg : forall B (k : config -> F B) V p, L (k (fe_cfg env)) V p -> L (c <~ fcfg ;; k c) V p.
Proof.
  intros B k V p H l pos Hb. specialize (H l pos Hb). unfold fbind, fcfg.
  destruct (k (fe_cfg env) env l pos); exact H.
Qed.

Lemma Lex_take : forall n, L (f_take n) (fun l b => b = take n l /\ n <= len l) (chunk n).
Proof.
  intros n l pos Hb. unfold f_take, chunk, plain. destruct l as [|x l]; [reflexivity|].
  replace (len (x :: l) =? 0) with false by (symmetry; apply N.eqb_neq; rewrite len_cons; lia).
  destruct (N.ltb_spec (len (x :: l)) n); [reflexivity|].
  split; [now split|]. exists n. repeat split. assumption.
Qed.

Lemma chunk_plain : forall n e d, 0 < n -> chunk n e d = plain n e d.
Proof.
  intros n e d Hn. unfold chunk, plain. destruct (N.eqb_spec (len d) 0) as [E|E]; [|reflexivity].
  now replace (len d <? n) with true by (symmetry; apply N.ltb_lt; lia).
Qed.

Lemma Lex_uint : forall pl n, 0 < n ->
  L (f_uint pl n) (fun l v => v = number (order_of pl (c_endian (fe_cfg env))) (part_of 0 n l)) (plain n).
Proof.
  intros pl n Hn l pos Hb. pose proof (Lex_take n l pos Hb) as H. rewrite chunk_plain in H by exact Hn.
  unfold f_uint, fbind, fcfg, fret. destruct (f_take n env l pos) as [b l' pos' ev|e l' pos' ev]; [|exact H].
  destruct H as [[-> _] H]. split; [|exact H]. unfold part_of. now rewrite drop_0, number_from.
Qed.

Lemma Lex_if : forall B (b : bool) (f : F B) V p, L f V p -> L (f_if b f) yes (if_ b p).
Proof.
  intros B [] f V p H; unfold f_if, if_.
  - eapply Lex_map, H.
  - now apply Lex_ret.
Qed.

Lemma Lex_rest : is_eof (fe_fin env) = true -> L f_rest yes (and_rest 0).
Proof.
  intros He l pos Hb. unfold f_rest, and_rest. destruct l as [|x l]; [reflexivity|]. rewrite He.
  replace (len (x :: l) <=? 0) with false by (symmetry; apply N.leb_gt; rewrite len_cons; lia).
  split; [exact I|]. exists (len (x :: l)). rewrite drop_all by lia. repeat split. lia.
Qed.

Lemma past_max : forall pl n, (usize_max pl <? n) = (2 ^ pl_bits pl <=? n).
Proof.
  intros pl n. unfold usize_max. assert (0 < 2 ^ pl_bits pl) by (apply N.neq_0_lt_0, N.pow_nonzero; discriminate).
  destruct (N.leb_spec (2 ^ pl_bits pl) n); [apply N.ltb_lt|apply N.ltb_ge]; lia.
Qed.

Lemma Lex_array : forall pl B (E : felem B) n,
  L (f_array pl E n) yes (items (pl_bits pl) (pl_host pl) (order_of pl (c_endian (fe_cfg env))) n (fl_size E)).
Proof.
  intros pl B E n l pos Hb. unfold f_array, items, plain. cbv zeta. rewrite native_eqb.
  rewrite past_max.
  destruct (_ && _); [reflexivity|]. destruct (_ && _); [reflexivity|].
  destruct (N.ltb_spec (len l) (n * fl_size E)); [reflexivity|].
  split; [exact I|]. exists (n * fl_size E). repeat split. assumption.
Qed.
End Lex.

(** * Parts that are put together *)

Lemma also_plain : forall a b e d, also (plain a) (plain b) e d = plain (a + b) e d.
Proof.
  intros a b e d. unfold also, plain.
  destruct (N.ltb_spec (len d) a), (N.ltb_spec (len d) (a + b)); try lia; try reflexivity; rewrite len_drop;
  destruct (N.ltb_spec (len d - a) b); try lia; reflexivity.
Qed.

Lemma also_rest : forall a b e d, also (plain a) (and_rest b) e d = and_rest (a + b) e d.
Proof.
  intros a b e d. unfold also, plain, and_rest.
  destruct (N.ltb_spec (len d) a), (N.leb_spec (len d) (a + b)); try lia; try reflexivity; rewrite len_drop;
  destruct (N.leb_spec (len d - a) b); try lia; try reflexivity. f_equal. lia.
Qed.

Lemma also_assoc : forall p q r e d, also (also p q) r e d = also p (also q r) e d.
Proof.
  intros p q r e d. unfold also. destruct (p e d); [|reflexivity]. destruct (q e (drop n d)); [|reflexivity].
  rewrite drop_drop. destruct (r e (drop (n + n0) d)); [|reflexivity]. now rewrite N.add_assoc.
Qed.

Lemma also_nothing : forall p e d, also p nothing e d = p e d.
Proof. intros p e d. unfold also, nothing. destruct (p e d); [|reflexivity]. now rewrite N.add_0_r. Qed.

Lemma nothing_also : forall p e d, also nothing p e d = p e d.
Proof. intros p e d. unfold also, nothing. rewrite drop_0. destruct (p e d); reflexivity. Qed.

Lemma also_eq_r : forall p q r e d, (forall d, q e d = r e d) -> also p q e d = also p r e d.
Proof. intros p q r e d H. unfold also. destruct (p e d); [|reflexivity]. now rewrite H. Qed.

Lemma also_eq_l : forall p q r e d, p e d = q e d -> also p r e d = also q r e d.
Proof. intros p q r e d H. unfold also. now rewrite H. Qed.

Lemma if_plain : forall b n e d, if_ b (plain n) e d = plain (if b then n else 0) e d.
Proof. intros [] n e d; [reflexivity|]. unfold if_, nothing, plain. destruct (N.ltb_spec (len d) 0); [lia|reflexivity]. Qed.

(** * The parts of records *)

Lemma contains_rbit : forall c w k, configured c w -> contains (read_format c) (2 ^ k) = rbit w k.
Proof. intros c w k (_ & -> & _). apply contains_pow2. Qed.

Lemma contains_sbit : forall c w k, configured c w -> contains (sample_type c) (2 ^ k) = sbit w k.
Proof. intros c w k (-> & _). apply contains_pow2. Qed.

Lemma known_iff : forall rf, negb (difference rf RF_ALL =? 0) = (2 ^ 5 <=? rf).
Proof.
  intros rf. destruct (N.leb_spec (2 ^ 5) rf) as [H|H].
  - destruct (N.eqb_spec (difference rf RF_ALL) 0) as [E|E]; [|reflexivity]. apply known_only in E. lia.
  - change RF_ALL with (N.ones 5). unfold difference. rewrite N.ldiff_ones_r_low; [reflexivity|].
    destruct (N.eq_dec rf 0) as [->|Hn]; [reflexivity|]. now apply N.log2_lt_pow2; [lia|].
Qed.

Section Parts.
Context (pl : platform) (Hpl : pl_ok pl) (env : fenv) (w : settings) (Hw : configured (fe_cfg env) w).

Notation L := (Lex env).
Let o := order_of pl (c_endian (fe_cfg env)).
Notation bits := (pl_bits pl).
Notation host := (pl_host pl).

Lemma Lex_u64 : L (f_uint pl 8) yes (plain 8).
Proof. eapply Lex_conv; [now apply Lex_uint|auto]. Qed.
Lemma Lex_u32 : L (f_uint pl 4) yes (plain 4).
Proof. eapply Lex_conv; [now apply Lex_uint|auto]. Qed.
Lemma Lex_u16 : L (f_uint pl 2) yes (plain 2).
Proof. eapply Lex_conv; [now apply Lex_uint|auto]. Qed.
Lemma Lex_u8 : L (f_uint pl 1) yes (plain 1).
Proof. eapply Lex_conv; [now apply Lex_uint|auto]. Qed.

Lemma Lex_f64 : forall b, L (f_if b (f_uint pl 8)) yes (if_ b (plain 8)).
Proof. intros b. eapply Lex_if, Lex_u64. Qed.

Lemma Lex_opt64 : forall b, L (f_if b (f_uint pl 8)) yes (plain (8 * flag b)).
Proof. intros b. eapply Lex_ext; [apply Lex_f64|]. intros d _. rewrite if_plain. now destruct b. Qed.

Lemma Lex_more : forall A B (f : F A) (k : A -> F B) V a b, L f V (plain a) -> (forall x, L (k x) yes (plain b)) ->
  L (fbind f k) yes (plain (a + b)).
Proof.
  intros A B f k V a b Hf Hk. eapply Lex_ext; [eapply Lex_bind; eassumption|]. intros d _. apply also_plain.
Qed.

Lemma Lex_more_rest : forall A B (f : F A) (k : A -> F B) V a b, L f V (plain a) -> (forall x, L (k x) yes (and_rest b)) ->
  L (fbind f k) yes (and_rest (a + b)).
Proof.
  intros A B f k V a b Hf Hk. eapply Lex_ext; [eapply Lex_bind; eassumption|]. intros d _. apply also_rest.
Qed.

Lemma Lex_plain : forall B (f : F B) V a b, L f V (plain a) -> a = b -> L f V (plain b).
Proof. now intros B f V a b H <-. Qed.

Lemma Lex_rest_n : forall B (f : F B) V a b, L f V (and_rest a) -> a = b -> L f V (and_rest b).
Proof. now intros B f V a b H <-. Qed.

Lemma Lex_ret_plain : forall B (b : B), L (fret b) yes (plain 0).
Proof.
  intros B b. eapply Lex_ext; [now apply Lex_ret|]. intros d _. unfold nothing, plain.
  destruct (N.ltb_spec (len d) 0); [lia|reflexivity].
Qed.

(** Integers one after the other. *)
Ltac ints :=
  repeat (cbv beta; match goal with
  | |- Lex _ (fbind _ (fun x => fret _)) _ _ => eapply Lex_map
  | |- Lex _ (fbind _ _) _ _ => eapply Lex_more; [|intros ?]
  | |- Lex _ (f_uint _ 8) _ _ => apply Lex_u64
  | |- Lex _ (f_uint _ 4) _ _ => apply Lex_u32
  | |- Lex _ (f_uint _ 2) _ _ => apply Lex_u16
  | |- Lex _ (f_uint _ 1) _ _ => apply Lex_u8
  | |- Lex _ (f_if _ (f_uint _ 8)) _ _ => apply Lex_opt64
  end).

Lemma Lex_read_value : L (f_read_value pl) yes (value_part w).
Proof.
  unfold f_read_value. apply Lex_cfg. cbv zeta.
  unfold RF_GROUP, RF_TIME_ENABLED, RF_TIME_RUNNING, RF_ID, RF_LOST. rewrite !(contains_rbit _ w _ Hw), known_iff.
  replace (read_format (fe_cfg env)) with (ws_read_format w) by (symmetry; apply Hw).
  unfold value_part. destruct (rbit w 3); [apply Lex_fail|]. destruct (2 ^ 5 <=? ws_read_format w); [apply Lex_fail|].
  eapply Lex_plain; [ints|lia].
Qed.

Lemma Lex_read_group : L (f_read_group pl) yes (group_part bits host o w).
Proof.
  unfold f_read_group. apply Lex_cfg. cbv zeta.
  unfold RF_GROUP, RF_TIME_ENABLED, RF_TIME_RUNNING. rewrite !(contains_rbit _ w _ Hw), known_iff.
  replace (read_format (fe_cfg env)) with (ws_read_format w) by (symmetry; apply Hw).
  unfold group_part. destruct (rbit w 3) eqn:E3; cbn [negb]; [|apply Lex_fail].
  destruct (2 ^ 5 <=? ws_read_format w) eqn:E5; [apply Lex_fail|].
  set (k := 1 + flag (rbit w 2) + flag (rbit w 4)).
  assert (Hk : element_len (ws_read_format w) = k) by (rewrite element_len_eq; reflexivity).
  rewrite Hk.
  assert (Hm : forall n, (usize_max pl <? n) = (2 ^ bits <=? n)) by apply past_max.
  eapply Lex_ext.
  - apply (Lex_dep env _ _ _ _ _ _ (fun l => also (plain (8 * flag (rbit w 0))) (also (plain (8 * flag (rbit w 1)))
      (also (if 2 ^ bits <=? count bits o 0 l * k then refused (wrong KInvalidRecord MsgGroupTooLarge) else nothing)
        (items bits host o (count bits o 0 l * k) 8)))) (Lex_uint env pl 8 eq_refl)). intros l nr _ ->.
    eapply Lex_bind; [apply Lex_opt64|]. intros te. eapply Lex_bind; [apply Lex_opt64|]. intros tr.
    cbv beta. change (as_usize pl (number (order_of pl (c_endian (fe_cfg env))) (part_of 0 8 l))) with (count bits o 0 l).
    rewrite Hm. destruct (2 ^ bits <=? count bits o 0 l * k); [apply Lex_fail_also|].
    eapply Lex_ext; [eapply Lex_map, Lex_array|]. intros d _. now rewrite nothing_also.
  - intros d _. cbn [in_turn fold_right]. cbv zeta. fold k.
    rewrite <- !also_assoc, also_nothing. apply also_eq_l. apply also_eq_l.
    erewrite also_eq_l by apply also_plain. rewrite also_plain. f_equal. lia.
Qed.

Lemma Lex_sample_read : L (f_sample_read pl) yes (values_part bits host o w).
Proof.
  unfold f_sample_read. apply Lex_cfg. unfold RF_GROUP. rewrite (contains_rbit _ w _ Hw). unfold values_part.
  destruct (rbit w 3); [apply Lex_read_group|]. eapply Lex_map, Lex_read_value.
Qed.

(** A count and an array. *)
Lemma Lex_callchain : L (f_callchain pl) yes (listed bits host o 8 (count bits o 0) 8).
Proof.
  apply (Lex_dep env _ _ _ _ _ _ (fun l => items bits host o (count bits o 0 l) 8) (Lex_uint env pl 8 eq_refl)).
  intros l nr _ ->. apply Lex_array.
Qed.

Lemma Lex_lbr : forall hw, L (f_lbr pl hw) yes (listed bits host o (8 + 8 * flag hw) (count bits o 0) 24).
Proof.
  intros hw. eapply Lex_ext.
  - apply (Lex_dep env _ _ _ _ _ _ (fun l => also (plain (8 * flag hw)) (items bits host o (count bits o 0 l) 24))
      (Lex_uint env pl 8 eq_refl)).
    intros l nr _ ->. eapply Lex_bind; [apply Lex_opt64|]. intros h. eapply Lex_map. apply (Lex_array env pl _ fl_branch).
  - intros d _. unfold listed. rewrite <- also_assoc. apply also_eq_l. apply also_plain.
Qed.

Lemma Lex_registers : forall mask, mask < 2 ^ 64 ->
  L (f_registers pl mask) yes (listed bits host o 8 (fun _ => bits_set mask) 8).
Proof.
  intros mask Hm. unfold f_registers. rewrite (popcount_bits_set mask Hm).
  apply (Lex_bind env _ _ _ _ _ (plain 8) (items bits host o (bits_set mask) 8) Lex_u64).
  intros abi. eapply Lex_map. apply (Lex_array env pl _ fl_u64).
Qed.

Lemma Lex_skip : forall n, L (f_skip n) yes (plain n).
Proof.
  intros n. unfold f_skip. destruct (N.eqb_spec n 0) as [->|Hn].
  - eapply Lex_ext; [now apply Lex_ret|]. intros d _. unfold nothing, plain. destruct (N.ltb_spec (len d) 0); [lia|reflexivity].
  - eapply Lex_map. eapply Lex_ext; [apply Lex_take|]. intros d _. apply chunk_plain. lia.
Qed.

Lemma pad_eq : forall k, (if k mod 8 =? 0 then 0 else 8 - k mod 8) = pad8 k.
Proof.
  intros k. unfold pad8. pose proof (N.mod_lt k 8 ltac:(discriminate)) as H. destruct (N.eqb_spec (k mod 8) 0) as [E|E].
  - rewrite E. reflexivity.
  - revert H E. generalize (k mod 8). clear. intros x H E. rewrite N.mod_small by lia. reflexivity.
Qed.

Lemma number_bound : forall n l, bytes l -> number o (part_of 0 n l) < 256 ^ n.
Proof.
  intros n l Hb. unfold part_of. rewrite number_from, drop_0. eapply N.lt_le_trans; [apply from_order_bound, bytes_take, Hb|].
  apply N.pow_le_mono_r; [discriminate|]. rewrite len_take. lia.
Qed.

Lemma Lex_raw : L (f_raw pl) yes (raw_part o).
Proof.
  set (N4 := fun d => number o (part_of 0 4 d)).
  assert (Hm : L (n <~ f_uint pl 4 ;; f_take (as_usize pl n)) yes (fun e d => also (plain 4) (chunk (N4 d)) e d)).
  { apply (Lex_dep env _ _ _ _ _ _ (fun d => chunk (N4 d)) (Lex_uint env pl 4 eq_refl)). intros l n Hb ->.
    fold o (N4 l). rewrite as_usize_small; [eapply Lex_conv; [apply Lex_take|auto]|].
    pose proof (number_bound 4 l Hb) as H. change (256 ^ 4) with (2 ^ 32) in H. fold (N4 l) in H.
    unfold usize_max. destruct Hpl as [E|E]; rewrite E; lia. }
  intros l pos Hb. unfold f_raw, f_padded, raw_part. fold (N4 l). specialize (Hm l pos Hb).
  unfold fbind at 1. destruct ((n <~ f_uint pl 4;; f_take (as_usize pl n)) env l pos) as [b l' pos' ev|e l' pos' ev].
  - destruct Hm as [_ (k & Hk & Hl & -> & ->)]. replace (pos + k - pos) with k by lia. rewrite pad_eq.
    pose proof (Lex_map env _ _ _ (fun _ => b) _ _ (Lex_skip (pad8 k)) (drop k l) (pos + k) (bytes_drop _ _ Hb)) as Hs. cbv beta in Hs.
    unfold also, chunk, plain in Hk |- *.
    destruct (N.ltb_spec (len l) 4); [discriminate|]. rewrite len_drop in Hk |- *.
    destruct (N.eqb_spec (len l - 4) 0); [discriminate|]. destruct (N.ltb_spec (len l - 4) (N4 l)); [discriminate|].
    assert (E : k = 4 + N4 l) by congruence. subst k. clear Hk.
    destruct ((_ <~ f_skip (pad8 (4 + N4 l));; fret b) env (drop (4 + N4 l) l) (pos + (4 + N4 l))) as [c l2 pos2 ev2|e l2 pos2 ev2].
    + destruct Hs as [_ (j & Hj & Hjl & -> & ->)]. split; [exact I|]. unfold plain in Hj. rewrite len_drop in Hj, Hjl.
      destruct (N.ltb_spec (len l - (4 + N4 l)) (pad8 (4 + N4 l))); [discriminate|].
      assert (E : j = pad8 (4 + N4 l)) by congruence. subst j. clear Hj.
      exists (4 + (N4 l + pad8 (4 + N4 l))). rewrite drop_drop.
      destruct (N.ltb_spec (len l - 4) (N4 l + pad8 (4 + N4 l))); [lia|]. repeat split; try lia. f_equal. lia.
    + unfold plain in Hs. rewrite len_drop in Hs.
      destruct (N.ltb_spec (len l - (4 + N4 l)) (pad8 (4 + N4 l))); [|discriminate].
      destruct (N.ltb_spec (len l - 4) (N4 l + pad8 (4 + N4 l))); [exact Hs|lia].
  - unfold also, chunk, plain in Hm |- *.
    destruct (N.ltb_spec (len l) 4); [exact Hm|]. rewrite len_drop in Hm |- *.
    destruct (N.eqb_spec (len l - 4) 0).
    + destruct (N.ltb_spec (len l - 4) (N4 l + pad8 (4 + N4 l))); [exact Hm|].
      assert (N4 l = 0) by lia. rewrite H1 in H0. change (0 + pad8 (4 + 0)) with 4 in H0. lia.
    + destruct (N.ltb_spec (len l - 4) (N4 l)); [|discriminate].
      destruct (N.ltb_spec (len l - 4) (N4 l + pad8 (4 + N4 l))); [exact Hm|lia].
Qed.

Lemma Lex_stack : L (f_stack_user pl) yes (stack_part bits o).
Proof.
  set (wr := wrong KInvalidRecord MsgDynSize).
  set (check := fun (n : N) (d2 : list N) (_ : perror) (_ : list N) =>
    if negb (n =? 0) && (n <? count bits o 0 d2) then Fault wr else Takes 0).
  eapply Lex_ext.
  - apply (Lex_dep env _ _ _ _ _ _ (fun d e d1 => also (chunk (count bits o 0 d))
      (fun e d2 => also (if_ (negb (count bits o 0 d =? 0)) (plain 8)) (check (count bits o 0 d) d2) e d2) e d1)
      (Lex_uint env pl 8 eq_refl)).
    intros l n _ ->. fold o. change (as_usize pl (number o (part_of 0 8 l))) with (count bits o 0 l).
    generalize (count bits o 0 l). clear l. intros n.
    apply (Lex_dep env _ _ _ _ _ _ (fun d1 e d2 => also (if_ (negb (n =? 0)) (plain 8)) (check n d2) e d2) (Lex_take env n)).
    intros l b _ [-> Hn].
    apply (Lex_dep env _ _ _ _ (fun d2 k => k = if n =? 0 then 0 else count bits o 0 d2) _ (fun d2 => check n d2)).
    + destruct (n =? 0); [now apply Lex_ret|]. intros l' pos' Hb'.
      pose proof (Lex_uint env pl 8 eq_refl l' pos' Hb') as H. unfold fbind.
      destruct (f_uint pl 8 env l' pos') as [x l2 p2 ev2|x l2 p2 ev2]; [|exact H].
      destruct H as [-> H]. split; [reflexivity|exact H].
    + intros l2 k _ ->. unfold check. rewrite len_take, N.min_l by exact Hn.
      destruct (N.eqb_spec n 0) as [E|E]; cbn [negb andb].
      * destruct (N.ltb_spec n 0); [lia|]. now apply Lex_ret.
      * destruct (n <? count bits o 0 l2); [apply Lex_fail|now apply Lex_ret].
  - intros d _. unfold stack_part. cbv zeta. cbn [in_turn fold_right]. set (n := count bits o 0 d).
    unfold also, nothing. destruct (plain 8 (fe_fin env) d) as [k|e] eqn:E1; [|reflexivity].
    assert (k = 8) by (unfold plain in E1; destruct (len d <? 8); [discriminate|now injection E1]). subst k.
    destruct (chunk n (fe_fin env) (drop 8 d)) as [k|e] eqn:E2; [|reflexivity].
    assert (k = n).
    { unfold chunk, plain in E2. destruct (len (drop 8 d) =? 0); [discriminate|].
      destruct (len (drop 8 d) <? n); [discriminate|now injection E2]. }
    subst k.
    destruct (if_ (negb (n =? 0)) (plain 8) (fe_fin env) (drop n (drop 8 d))) as [k|e] eqn:E3; [|reflexivity].
    unfold check, count, part_of. rewrite drop_0, drop_drop.
    destruct (negb (n =? 0) && _); [reflexivity|]. f_equal. lia.
Qed.

Lemma Lex_aux : L (f_sample_aux pl) yes (aux_part bits o).
Proof.
  apply (Lex_dep env _ _ _ _ _ _ (fun l => chunk (count bits o 0 l)) (Lex_uint env pl 8 eq_refl)).
  intros l nr _ ->. eapply Lex_conv; [apply Lex_take|auto].
Qed.

Context (Hru : ws_regs_user w < 2 ^ 64) (Hri : ws_regs_intr w < 2 ^ 64).

Lemma Lex_sample : L (f_sample pl) yes (sample_part bits host o w).
Proof.
  unfold f_sample. apply Lex_cfg. cbv zeta.
  unfold SF_IP, SF_TID, SF_TIME, SF_ADDR, SF_READ, SF_CALLCHAIN, SF_ID, SF_CPU, SF_PERIOD,
    SF_STREAM_ID, SF_RAW, SF_BRANCH_STACK, SF_REGS_USER, SF_STACK_USER, SF_WEIGHT, SF_DATA_SRC,
    SF_IDENTIFIER, SF_TRANSACTION, SF_REGS_INTR, SF_PHYS_ADDR, SF_AUX, SF_CGROUP,
    SF_DATA_PAGE_SIZE, SF_CODE_PAGE_SIZE.
  rewrite !(contains_sbit _ w _ Hw).
  replace (branch_hw_index (fe_cfg env)) with (ws_hw_index w) by (symmetry; apply Hw).
  replace (c_regs_user (fe_cfg env)) with (ws_regs_user w) by (symmetry; apply Hw).
  replace (c_regs_intr (fe_cfg env)) with (ws_regs_intr w) by (symmetry; apply Hw).
  unfold sample_part. cbn [in_turn fold_right].
  eapply Lex_bind; [apply Lex_f64|]; intros ?. eapply Lex_bind; [apply Lex_f64|]; intros ?.
  eapply Lex_ext.
  { eapply Lex_bind; [eapply Lex_if, Lex_u32|]; intros ?. eapply Lex_bind; [eapply Lex_if, Lex_u32|]; intros ?.
    do 4 (eapply Lex_bind; [apply Lex_f64|]; intros ?).
    eapply Lex_bind; [eapply Lex_if; eapply Lex_more; [apply Lex_u32|]; intros ?; eapply Lex_map, Lex_u32|]; intros ?.
    eapply Lex_bind; [apply Lex_f64|]; intros ?.
    eapply Lex_bind; [eapply Lex_if, Lex_sample_read|]; intros ?.
    eapply Lex_bind; [eapply Lex_if, Lex_callchain|]; intros ?.
    eapply Lex_bind; [eapply Lex_if, Lex_raw|]; intros ?.
    eapply Lex_bind; [eapply Lex_if, Lex_lbr|]; intros ?.
    eapply Lex_bind; [eapply Lex_if, (Lex_registers _ Hru)|]; intros ?.
    eapply Lex_bind; [eapply Lex_if, Lex_stack|]; intros ?.
    do 3 (eapply Lex_bind; [apply Lex_f64|]; intros ?).
    eapply Lex_bind; [eapply Lex_if, (Lex_registers _ Hri)|]; intros ?.
    do 4 (eapply Lex_bind; [apply Lex_f64|]; intros ?).
    eapply Lex_bind; [eapply Lex_if, Lex_aux|]; intros ?.
    now apply Lex_ret. }
  intros d _. rewrite <- also_assoc. apply also_eq_l. destruct (sbit w 1); cbn [if_]; [apply also_plain|apply nothing_also].
Qed.

Lemma Lex_string : is_eof (fe_fin env) = true -> L f_string yes (and_rest 0).
Proof. intros He. unfold f_string. eapply Lex_map, Lex_rest, He. Qed.

Lemma Lex_detail : forall m, misc (fe_cfg env) = m ->
  L (f_mmap_detail pl) yes (if N.testbit m 14 then build_id_part o else plain 24).
Proof.
  intros m Hm. unfold f_mmap_detail. apply Lex_cfg. rewrite Hm. unfold MISC_MMAP_BUILD_ID.
  replace (negb (N.land m (2 ^ 14) =? 0)) with (N.testbit m 14).
  2:{ rewrite land_pow2. destruct (N.testbit m 14); reflexivity. }
  destruct (N.testbit m 14).
  - eapply Lex_ext.
    + apply (Lex_dep env _ _ _ _ _ _ (fun d => also (plain 1) (also (plain 2) (also (plain 20) (fun e d' =>
        if 20 <? number o (part_of 0 1 d) then Fault (wrong KInvalidRecord (MsgBuildIdLen (number o (part_of 0 1 d))))
        else Takes 0)))) (Lex_uint env pl 1 eq_refl)). intros l n _ ->. fold o. cbv beta.
      generalize (number o (part_of 0 1 l)). clear l. intros n.
      eapply Lex_bind; [apply Lex_u8|]. intros _. eapply Lex_bind; [apply Lex_u16|]. intros _.
      eapply Lex_bind.
      { eapply Lex_ext; [apply Lex_take|]. intros d _. now apply chunk_plain. }
      intros b. destruct (20 <? n); [apply Lex_fail|now apply Lex_ret].
    + intros d _. unfold build_id_part. cbv zeta. rewrite <- !also_assoc. apply also_eq_l.
      erewrite also_eq_l by (erewrite also_eq_l by apply also_plain; apply also_plain). rewrite also_plain. reflexivity.
  - eapply Lex_plain; [ints|reflexivity].
Qed.

Lemma pad_up : forall n, round_up_mod n 4 8 = n + pad8 (4 + n).
Proof.
  intros n. unfold round_up_mod, pad8. rewrite <- (N.add_mod_idemp_r 4 n) by discriminate.
  pose proof (N.mod_lt n 8 ltac:(discriminate)) as H. revert H. generalize (n mod 8). intros k H.
  assert (C : k = 0 \/ k = 1 \/ k = 2 \/ k = 3 \/ k = 4 \/ k = 5 \/ k = 6 \/ k = 7) by lia. clear H.
  decompose [or] C; subst; reflexivity.
Qed.

Lemma Lex_event : forall b e, L (f_event b e) yes nothing.
Proof.
  intros b e l p _. unfold f_event. split; [exact I|]. exists 0. rewrite drop_0, N.add_0_r.
  repeat split. apply N.le_0_l.
Qed.

Lemma Lex_text_poke : L (f_text_poke pl) yes (poke_part o).
Proof.
  set (ol := fun d => number o (part_of 0 2 d)).
  eapply Lex_ext.
  - unfold f_text_poke. eapply Lex_bind; [apply Lex_u64|]. intros addr.
    apply (Lex_dep env _ _ _ _ _ _ (fun d e d1 => also (plain 2) (let n := ol d + ol d1 in plain (n + pad8 (4 + n))) e d1)
      (Lex_uint env pl 2 eq_refl)). intros l x _ ->. fold o (ol l).
    apply (Lex_dep env _ _ _ _ _ _ (fun d1 => let n := ol l + ol d1 in plain (n + pad8 (4 + n)))
      (Lex_uint env pl 2 eq_refl)). intros l1 x _ ->. fold o (ol l1). cbv zeta.
    rewrite pad_up. generalize (ol l + ol l1). intros n.
    assert (Hp : 0 < n + pad8 (4 + n)).
    { rewrite <- pad_up. unfold round_up_mod. pose proof (N.mod_lt n 8 ltac:(discriminate)).
      destruct (N.leb_spec (n mod 8) 4); [|lia]. destruct (N.eq_dec n 0) as [->|]; [reflexivity|lia]. }
    eapply Lex_ext; [eapply Lex_bind; [apply Lex_take|]; intros b; eapply Lex_map|].
    { apply Lex_event. }
    intros d _. rewrite also_nothing. now apply chunk_plain.
  - intros d _. unfold poke_part. cbv zeta. unfold also, plain.
    destruct (N.ltb_spec (len d) 8) as [H8|H8].
    { now replace (len d <? 12) with true by (symmetry; apply N.ltb_lt; lia). }
    rewrite len_drop. destruct (N.ltb_spec (len d - 8) 2) as [H10|H10].
    { now replace (len d <? 12) with true by (symmetry; apply N.ltb_lt; lia). }
    rewrite !drop_drop, !len_drop. change (8 + 2) with 10. destruct (N.ltb_spec (len d - 10) 2) as [H12|H12].
    { now replace (len d <? 12) with true by (symmetry; apply N.ltb_lt; lia). }
    replace (len d <? 12) with false by (symmetry; apply N.ltb_ge; lia).
    rewrite !drop_drop, !len_drop. change (10 + 2) with 12. unfold ol, part_of. rewrite !drop_drop.
    change (8 + 0) with 8. change (10 + 0) with 10.
    set (n := number o (take 2 (drop 8 d)) + number o (take 2 (drop 10 d))).
    destruct (len d - 12 <? n + pad8 (4 + n)); [reflexivity|]. f_equal. lia.
Qed.

Lemma Lex_namespaces : L (f_namespaces pl) yes (listed bits host o 16 (count bits o 8) 16).
Proof.
  eapply Lex_ext.
  - unfold f_namespaces. eapply Lex_bind; [apply Lex_u32|]. intros pid. eapply Lex_bind; [apply Lex_u32|]. intros tid.
    apply (Lex_dep env _ _ _ _ _ _ (fun l => items bits host o (count bits o 0 l) 16) (Lex_uint env pl 8 eq_refl)).
    intros l nr _ ->. eapply Lex_map. apply (Lex_array env pl _ fl_ns).
  - intros d _. unfold listed, also, plain.
    destruct (N.ltb_spec (len d) 4) as [H4|H4].
    { now replace (len d <? 16) with true by (symmetry; apply N.ltb_lt; lia). }
    rewrite len_drop. destruct (N.ltb_spec (len d - 4) 4) as [H8|H8].
    { now replace (len d <? 16) with true by (symmetry; apply N.ltb_lt; lia). }
    rewrite !drop_drop, !len_drop. change (4 + 4) with 8. destruct (N.ltb_spec (len d - 8) 8) as [H12|H12].
    { now replace (len d <? 16) with true by (symmetry; apply N.ltb_lt; lia). }
    replace (len d <? 16) with false by (symmetry; apply N.ltb_ge; lia).
    rewrite !drop_drop. change (8 + 8) with 16. unfold count, part_of. rewrite drop_drop. change (8 + 0) with 8.
    destruct (items _ _ _ _ _ _ _); [|reflexivity]. f_equal. lia.
Qed.

Lemma other_body : forall t m, ~ In t [1;2;3;4;5;6;7;8;9;10;11;12;13;15;16;17;18;19;20;21] ->
  body_part bits host o w t m = and_rest 0.
Proof.
  intros t m H. destruct t as [|p]; [reflexivity|].
  do 5 (try destruct p as [p|p|]); try reflexivity; exfalso; apply H; cbn; tauto.
Qed.

Ltac str He := repeat (cbv beta; match goal with
  | |- Lex _ (fbind _ (fun x => fret _)) _ _ => eapply Lex_map, Lex_string, He
  | |- Lex _ (fbind _ _) _ _ => eapply Lex_more_rest; [ints|intros ?]
  end).

Lemma Lex_body : forall t m, is_eof (fe_fin env) = true -> misc (fe_cfg env) = m ->
  L (f_body pl t) yes (body_part bits host o w t m).
Proof.
  intros t m He Hm. unfold f_body.
  destruct (N.eqb_spec t 1) as [->|E1].
  { eapply Lex_map. unfold f_mmap. eapply Lex_rest_n; [str He|reflexivity]. }
  destruct (N.eqb_spec t 2) as [->|E2]. { eapply Lex_map. unfold f_lost. eapply Lex_plain; [ints|reflexivity]. }
  destruct (N.eqb_spec t 3) as [->|E3].
  { eapply Lex_map. unfold f_comm. eapply Lex_rest_n; [str He|reflexivity]. }
  destruct (N.eqb_spec t 4) as [->|E4]. { eapply Lex_map. unfold f_exit. eapply Lex_plain; [ints|reflexivity]. }
  destruct (N.eqb_spec t 5) as [->|E5]. { eapply Lex_map. unfold f_throttle. eapply Lex_plain; [ints|reflexivity]. }
  destruct (N.eqb_spec t 6) as [->|E6]. { eapply Lex_map. unfold f_throttle. eapply Lex_plain; [ints|reflexivity]. }
  destruct (N.eqb_spec t 7) as [->|E7]. { eapply Lex_map. unfold f_exit. eapply Lex_plain; [ints|reflexivity]. }
  destruct (N.eqb_spec t 8) as [->|E8].
  { eapply Lex_map. unfold f_read. eapply Lex_ext.
    - eapply Lex_bind; [apply Lex_u32|]. intros pid. eapply Lex_bind; [apply Lex_u32|]. intros tid.
      eapply Lex_map, Lex_read_value.
    - intros d _. rewrite <- also_assoc. apply also_eq_l. apply also_plain. }
  destruct (N.eqb_spec t 9) as [->|E9]. { eapply Lex_map, Lex_sample. }
  destruct (N.eqb_spec t 10) as [->|E10].
  { eapply Lex_map. unfold f_mmap2. eapply Lex_ext.
    - eapply Lex_bind; [apply Lex_u32|]. intros pid. eapply Lex_bind; [apply Lex_u32|]. intros tid.
      eapply Lex_bind; [apply Lex_u64|]. intros addr. eapply Lex_bind; [apply Lex_u64|]. intros n.
      eapply Lex_bind; [apply Lex_u64|]. intros off. eapply Lex_bind; [apply (Lex_detail m Hm)|]. intros d.
      eapply Lex_rest_n; [str He|reflexivity].
    - intros d _. cbn [body_part in_turn fold_right]. rewrite <- !also_assoc, also_nothing. apply also_eq_l, also_eq_l.
      erewrite also_eq_l by (erewrite also_eq_l by (erewrite also_eq_l by apply also_plain; apply also_plain); apply also_plain).
      rewrite also_plain. reflexivity. }
  destruct (N.eqb_spec t 11) as [->|E11]. { eapply Lex_map. unfold f_aux. eapply Lex_plain; [ints|reflexivity]. }
  destruct (N.eqb_spec t 12) as [->|E12]. { eapply Lex_map. unfold f_itrace_start. eapply Lex_plain; [ints|reflexivity]. }
  destruct (N.eqb_spec t 13) as [->|E13]. { eapply Lex_map. unfold f_lost_samples. eapply Lex_plain; [ints|reflexivity]. }
  destruct (N.eqb_spec t 15) as [->|E15].
  { eapply Lex_map. unfold f_switch_cpu_wide. eapply Lex_plain.
    - eapply Lex_more; [apply Lex_u32|]. intros pid. eapply Lex_more with (b := 0); [apply Lex_u32|]. intros tid.
      apply Lex_cfg. apply Lex_ret_plain.
    - reflexivity. }
  destruct (N.eqb_spec t 16) as [->|E16]. { eapply Lex_map, Lex_namespaces. }
  destruct (N.eqb_spec t 17) as [->|E17].
  { eapply Lex_map. unfold f_ksymbol. eapply Lex_rest_n; [str He|reflexivity]. }
  destruct (N.eqb_spec t 18) as [->|E18].
  { eapply Lex_map. unfold f_bpf_event. eapply Lex_plain; [ints|].
    - eapply Lex_ext; [apply Lex_take|]. intros d _. now apply (chunk_plain 8).
    - reflexivity. }
  destruct (N.eqb_spec t 19) as [->|E19].
  { eapply Lex_map. unfold f_cgroup. eapply Lex_rest_n; [str He|reflexivity]. }
  destruct (N.eqb_spec t 20) as [->|E20]. { eapply Lex_map, Lex_text_poke. }
  destruct (N.eqb_spec t 21) as [->|E21]. { eapply Lex_map. unfold f_aux_output_hw_id. eapply Lex_plain; [ints|reflexivity]. }
  rewrite other_body by (cbn; intuition congruence). eapply Lex_map, Lex_rest, He.
Qed.
End Parts.

(** * Records *)

Lemma Lex_sample_id : forall pl env w, configured (fe_cfg env) w -> Lex env (f_sample_id pl) yes (plain (id_len w)).
Proof.
  intros pl env w Hw. unfold f_sample_id. apply Lex_cfg. cbv zeta.
  unfold SF_TID, SF_TIME, SF_ID, SF_STREAM_ID, SF_CPU, SF_IDENTIFIER. rewrite !(contains_sbit _ w _ Hw).
  replace (sample_id_all (fe_cfg env)) with (ws_id_all w) by (symmetry; apply Hw).
  unfold id_len. destruct (ws_id_all w); cbn [negb]; [|apply Lex_ret_plain].
  assert (H4 : forall b, Lex env (f_if b (f_uint pl 4)) yes (plain (4 * flag b))).
  { intros b. eapply Lex_ext; [eapply Lex_if, Lex_u32|]. intros d _. rewrite if_plain. now destruct b. }
  assert (Hc : forall b, Lex env (f_if b (a <~ f_uint pl 4 ;; _ <~ f_uint pl 4 ;; fret a)) yes (plain (8 * flag b))).
  { intros b. eapply Lex_ext; [eapply Lex_if; eapply Lex_more; [apply Lex_u32|]; intros ?; eapply Lex_map, Lex_u32|].
    intros d _. rewrite if_plain. now destruct b. }
  eapply Lex_plain.
  - eapply Lex_more; [apply H4|]. intros ?. eapply Lex_more; [apply H4|]. intros ?.
    do 3 (eapply Lex_more; [apply Lex_opt64|]; intros ?). eapply Lex_more; [apply Hc|]. intros ?.
    eapply Lex_map, Lex_opt64.
  - lia.
Qed.

Lemma id_len_eq : forall c w, configured c w -> estimate_len c = id_len w.
Proof.
  intros c w (E1 & _ & E2 & _). rewrite estimate_len_bits, E1, E2. unfold id_len, sbit, b2n, flag.
  destruct (ws_id_all w); [|reflexivity]. reflexivity.
Qed.

Lemma header_run : forall pl env l pos, bytes l ->
  let o := order_of pl (c_endian (fe_cfg env)) in
  if len l <? 8 then exists l' pos' ev, f_header pl env l pos = FErr (fe_fin env) l' pos' ev
  else exists ev, f_header pl env l pos =
    FOk (mkHeader (number o (part_of 0 4 l)) (number o (part_of 4 2 l)) (number o (part_of 6 2 l))) (drop 8 l) (pos + 8) ev.
Proof.
  intros pl env l pos Hb o. unfold f_header, fbind.
  pose proof (Lex_uint env pl 4 eq_refl l pos Hb) as H1. unfold plain in H1.
  destruct (f_uint pl 4 env l pos) as [t l1 p1 e1|e l1 p1 e1].
  2:{ destruct (N.ltb_spec (len l) 4); [|discriminate]. injection H1 as <-.
      replace (len l <? 8) with true by (symmetry; apply N.ltb_lt; lia). eauto. }
  destruct H1 as [-> (n & H1 & Hl & -> & ->)]. destruct (N.ltb_spec (len l) 4); [discriminate|]. injection H1 as <-.
  pose proof (Lex_uint env pl 2 eq_refl (drop 4 l) (pos + 4) (bytes_drop _ _ Hb)) as H2. unfold plain in H2.
  rewrite len_drop in H2.
  destruct (f_uint pl 2 env (drop 4 l) (pos + 4)) as [m l1 p1 e2|e l1 p1 e2].
  2:{ destruct (N.ltb_spec (len l - 4) 2); [|discriminate]. injection H2 as <-.
      replace (len l <? 8) with true by (symmetry; apply N.ltb_lt; lia). eauto. }
  destruct H2 as [-> (n & H2 & Hl2 & -> & ->)]. destruct (N.ltb_spec (len l - 4) 2); [discriminate|]. injection H2 as <-.
  rewrite drop_drop. change (4 + 2) with 6.
  pose proof (Lex_uint env pl 2 eq_refl (drop 6 l) (pos + 4 + 2) (bytes_drop _ _ Hb)) as H3. unfold plain in H3.
  rewrite len_drop in H3.
  destruct (f_uint pl 2 env (drop 6 l) (pos + 4 + 2)) as [s l1 p1 e3|e l1 p1 e3].
  2:{ destruct (N.ltb_spec (len l - 6) 2); [|discriminate]. injection H3 as <-.
      replace (len l <? 8) with true by (symmetry; apply N.ltb_lt; lia). eauto. }
  destruct H3 as [-> (n & H3 & Hl3 & -> & ->)]. destruct (N.ltb_spec (len l - 6) 2); [discriminate|]. injection H3 as <-.
  replace (len l <? 8) with false by (symmetry; apply N.ltb_ge; lia).
  unfold fret, part_of. rewrite !drop_drop. change (6 + 2) with 8. change (6 + 0) with 6. change (4 + 0) with 4.
  replace (pos + 4 + 2 + 2) with (pos + 8) by lia. eauto.
Qed.

Lemma split_run : forall env n l pos,
  if len l <? n then exists l' pos' ev, f_split n env l pos = FErr (fe_fin env) l' pos' ev
  else exists ev, f_split n env l pos = FOk (take n l, pos) (drop n l) (pos + n) ev.
Proof.
  intros env n l pos. unfold f_split. destruct (N.eqb_spec n 0) as [->|Hn].
  - destruct (N.ltb_spec (len l) 0); [lia|]. rewrite take_0, drop_0, N.add_0_r. eexists. reflexivity.
  - unfold f_take. destruct l as [|x l].
    + destruct (N.ltb_spec (len (@nil N)) n); [eauto|]. rewrite len_nil in *. lia.
    + destruct (len (x :: l) <? n); eauto.
Qed.

Lemma configured_with : forall c w m, configured c w -> configured (with_misc c m) w.
Proof. intros. now apply configured_misc. Qed.

Section Record.
Context (pl : platform) (Hpl : pl_ok pl) (env : fenv) (w : settings) (Hw : configured (fe_cfg env) w).
Context (Hru : ws_regs_user w < 2 ^ 64) (Hri : ws_regs_intr w < 2 ^ 64).
Let o := order_of pl (c_endian (fe_cfg env)).

(** A record whose header has been read. *)
Lemma body_run : forall t m size l pos, m < 2 ^ 16 -> bytes l -> 8 <= size ->
  let id := if (t =? 1) || (t =? 9) then 0 else id_len w in
  let r := f_record_with_header pl (mkHeader t m size) env l pos in
  if len l <? size - 8 then exists l' pos' ev, r = FErr (fe_fin env) l' pos' ev
  else if size - 8 <? id
  then exists l' pos' ev, r = FErr (wrong KInvalidRecord MsgNoRoomForSampleId) l' pos' ev
  else match body_part (pl_bits pl) (pl_host pl) o w t m (mkError KEof None) (part_of 0 (size - 8 - id) l) with
       | Takes _ => exists x ev, r = FOk x (drop (size - 8) l) (pos + (size - 8)) ev
       | Fault e => exists l' pos' ev, r = FErr e l' pos' ev
       end.
Proof.
  intros t m size l pos Hm Hb H8 id r. subst r. unfold f_record_with_header, f_metadata_with_header.
  cbn [h_size h_type h_misc].
  replace (size <? 8) with false by (symmetry; apply N.ltb_ge; exact H8).
  pose proof (split_run env (size - 8) l pos) as Hs.
  unfold fbind. destruct (N.ltb_spec (len l) (size - 8)) as [|Hlen].
  { destruct Hs as (l' & pos' & ev & ->). eauto. }
  destruct Hs as (ev & ->). cbv beta iota.
  set (l1 := drop (size - 8) l). set (p1 := pos + (size - 8)).
  assert (Hbd : forall d p, bytes d ->
    match f_sub (f_body pl t) (with_misc (fe_cfg env) m) (d, p) env l1 p1 with
    | FOk _ a b _ => (exists n, body_part (pl_bits pl) (pl_host pl) o w t m (mkError KEof None) d = Takes n) /\ a = l1 /\ b = p1
    | FErr e _ _ _ => body_part (pl_bits pl) (pl_host pl) o w t m (mkError KEof None) d = Fault e
    end).
  { intros d p Hd. unfold f_sub. cbn [fst snd].
    pose proof (Lex_body pl Hpl (mkEnv (with_misc (fe_cfg env) m) eof_error) w (configured_with _ _ _ Hw) Hru Hri t m
      eq_refl (with_misc_misc _ _ Hm) d p Hd) as H. cbn [fe_cfg fe_fin] in H.
    replace (c_endian (with_misc (fe_cfg env) m)) with (c_endian (fe_cfg env)) in H by reflexivity. fold o in H.
    destruct (f_body pl t _ d p) as [x l2 p2 ev2|e l2 p2 ev2]; [|exact H].
    destruct H as [_ (n & H & _)]. split; [now exists n|now split]. }
  assert (Bt : bytes (take (size - 8) l)) by now apply bytes_take.
  subst id. destruct ((t =? 1) || (t =? 9)).
  - destruct (N.ltb_spec (size - 8) 0); [lia|]. cbn [fst]. unfold fret. cbn [fst snd].
    specialize (Hbd (take (size - 8) l) pos Bt). rewrite N.sub_0_r. unfold part_of. rewrite drop_0.
    unfold fcfg. fold l1 p1.
    destruct (f_sub _ _ _ env l1 p1) as [x a b ev2|e a b ev2].
    + destruct Hbd as ((n & ->) & -> & ->). eauto.
    + rewrite Hbd. eauto.
  - unfold fcfg. cbv beta iota. rewrite (id_len_eq _ w Hw).
    destruct (N.ltb_spec (size - 8) (id_len w)) as [|Hid]; [cbn; eauto|].
    fold l1 p1.
    set (q := f_sub _ _ _ env l1 p1).
    assert (Hq : exists si ev2, q = FOk ((take (size - 8 - id_len w) l, pos), si) l1 p1 ev2).
    { subst q. unfold f_sub. cbn [fst snd].
      pose proof (split_run (mkEnv (fe_cfg env) eof_error) (size - 8 - id_len w) (take (size - 8) l) pos) as Hs2.
      assert (Hlt : len (take (size - 8) l) = size - 8) by (rewrite len_take; lia).
      rewrite Hlt in Hs2. destruct (N.ltb_spec (size - 8) (size - 8 - id_len w)); [lia|].
      destruct Hs2 as (ev2 & ->).
      pose proof (Lex_sample_id pl (mkEnv (fe_cfg env) eof_error) w Hw (drop (size - 8 - id_len w) (take (size - 8) l))
        (pos + (size - 8 - id_len w)) (bytes_drop _ _ Bt)) as Hi.
      unfold plain in Hi. rewrite len_drop, Hlt in Hi.
      destruct (f_sample_id pl _ _ _) as [si l2 p2 ev3|e l2 p2 ev3].
      - unfold fret. cbn [fst snd]. rewrite take_take, N.min_l by lia. eexists _, _. reflexivity.
      - destruct (N.ltb_spec (size - 8 - (size - 8 - id_len w)) (id_len w)); [lia|discriminate]. }
    destruct Hq as (si & ev2 & ->). unfold fret. cbn [fst snd].
    specialize (Hbd (take (size - 8 - id_len w) l) pos (bytes_take _ _ Hb)). unfold part_of. rewrite drop_0.
    destruct (f_sub (f_body pl t) _ _ env l1 p1) as [x a b ev3|e a b ev3].
    + destruct Hbd as ((n & ->) & -> & ->). eauto.
    + rewrite Hbd. eauto.
Qed.

Lemma Lex_record : Lex env (f_record pl) yes (record_part (pl_bits pl) (pl_host pl) o w).
Proof.
  intros l pos Hb. pose proof (header_run pl env l pos Hb) as Hh. cbv zeta in Hh. fold o in Hh.
  unfold record_part. cbv zeta. unfold f_record, fbind.
  destruct (N.ltb_spec (len l) 8) as [H8|H8].
  { destruct Hh as (l' & pos' & ev & ->). reflexivity. }
  destruct Hh as (ev & ->). cbv beta iota.
  set (t := number o (part_of 0 4 l)). set (m := number o (part_of 4 2 l)). set (size := number o (part_of 6 2 l)).
  destruct (N.ltb_spec size 8) as [Hz|Hz].
  { unfold f_record_with_header, f_metadata_with_header, fbind. cbn [h_size].
    replace (size <? 8) with true by (symmetry; apply N.ltb_lt; exact Hz). reflexivity. }
  assert (Hm : m < 2 ^ 16).
  { unfold m, part_of. pose proof (number_bound pl env 2 (drop 4 l) (bytes_drop _ _ Hb)) as H. fold o in H.
    unfold part_of in H. rewrite drop_0 in H. exact H. }
  pose proof (body_run t m size (drop 8 l) (pos + 8) Hm (bytes_drop _ _ Hb) Hz) as Hr. cbv zeta in Hr.
  rewrite len_drop in Hr.
  destruct (N.ltb_spec (len l) size) as [Hl|Hl].
  { replace (len l - 8 <? size - 8) with true in Hr by (symmetry; apply N.ltb_lt; lia).
    destruct Hr as (l' & pos' & ev' & ->). reflexivity. }
  replace (len l - 8 <? size - 8) with false in Hr by (symmetry; apply N.ltb_ge; lia).
  set (id := if (t =? 1) || (t =? 9) then 0 else id_len w) in *.
  destruct (size - 8 <? id).
  { destruct Hr as (l' & pos' & ev' & ->). reflexivity. }
  replace (part_of 0 (size - 8 - id) (drop 8 l)) with (part_of 8 (size - 8 - id) l) in Hr by (unfold part_of; now rewrite drop_0).
  destruct (body_part _ _ _ _ t m _ (part_of 8 (size - 8 - id) l)) as [n|e].
  - destruct Hr as (x & ev' & ->). split; [exact I|]. exists size. rewrite drop_drop.
    replace (8 + (size - 8)) with size by lia. repeat split; lia.
  - destruct Hr as (l' & pos' & ev' & ->). reflexivity.
Qed.
End Record.

(** * Attrs *)

Section Attr.
Context (pl : platform) (env : fenv).
Notation L := (Lex env).
Let o := order_of pl (c_endian (fe_cfg env)).

Lemma Lex_or0 : forall b n, 0 < n -> L (f_or0 b (f_uint pl n)) yes (plain (if b then n else 0)).
Proof.
  intros [] n Hn; cbn [f_or0].
  - eapply Lex_conv; [now apply Lex_uint|auto].
  - apply Lex_ret_plain.
Qed.

Lemma Lex_then : forall A B (f : F A) (k : A -> F B) a b q, L f yes (plain a) ->
  (forall x, L (k x) yes (also (plain b) q)) -> L (fbind f k) yes (also (plain (a + b)) q).
Proof.
  intros A B f k a b q Hf Hk. eapply Lex_ext; [eapply Lex_bind; eassumption|].
  intros d _. rewrite <- also_assoc. apply also_eq_l, also_plain.
Qed.

Lemma Lex_last : forall A B (f : F A) (k : A -> B) q, L f yes q -> L (x <~ f ;; fret (k x)) yes (also (plain 0) q).
Proof.
  intros A B f k q H. eapply Lex_ext; [eapply Lex_map, H|]. intros d _.
  rewrite <- (nothing_also q) at 1. apply also_eq_l. unfold nothing, plain.
  destruct (N.ltb_spec (len d) 0); [lia|reflexivity].
Qed.

Definition tail_part : part := fun e d =>
  if len d =? 0 then Fault e
  else if forallb (N.eqb 0) d then Takes (len d) else Fault (wrong KUnsupportedData MsgAttrTail).

Lemma Lex_attr_fields : forall t s, existsb (N.eqb s) versions || (136 <? s) = true -> is_eof (fe_fin env) = true ->
  L (f_attr_fields pl t s) yes (also (plain (N.min s 136 - 8)) (if 136 <? s then tail_part else nothing)).
Proof.
  intros t s Hs He. unfold f_attr_fields. cbv zeta.
  eapply Lex_ext.
  - repeat (eapply Lex_then; [now apply Lex_or0|intros ?]). apply Lex_last.
    refine (_ : L _ yes (if 136 <? s then tail_part else nothing)).
    destruct (136 <? s); [|now apply Lex_ret].
    intros l pos Hb. unfold fbind, f_rest, tail_part. rewrite He. destruct l as [|y l]; [reflexivity|].
    replace (len (y :: l) =? 0) with false by (symmetry; apply N.eqb_neq; rewrite len_cons; lia).
    assert (E : forall d, forallb (fun b => b =? 0) d = forallb (N.eqb 0) d).
    { induction d as [|b d IH]; [reflexivity|]. cbn [forallb]. now rewrite IH, N.eqb_sym. }
    rewrite E. destruct (forallb (N.eqb 0) (y :: l)); [|reflexivity].
    split; [exact I|]. exists (len (y :: l)). rewrite drop_all by lia. repeat split. lia.
  - intros d _. apply also_eq_l. f_equal. apply orb_true_iff in Hs as [Hs|Hs].
    + apply existsb_exists in Hs as (x & Hx & E). apply N.eqb_eq in E. subst x.
      cbn in Hx. decompose [or] Hx; subst; try reflexivity; contradiction.
    + apply N.ltb_lt in Hs.
      repeat match goal with |- context [?a <=? s] => replace (a <=? s) with true by (symmetry; apply N.leb_le; lia) end.
      rewrite N.min_r by lia. reflexivity.
Qed.
End Attr.

Lemma Lex_attr : forall pl env, Lex env (f_attr pl) yes (attr_part (order_of pl (c_endian (fe_cfg env)))).
Proof.
  intros pl env. set (o := order_of pl (c_endian (fe_cfg env))). eapply Lex_ext.
  - unfold f_attr. eapply Lex_bind; [apply Lex_u32|]. intros t.
    apply (Lex_dep env _ _ _ _ _ _ (fun d => let s := number o (part_of 0 4 d) in
      if negb (existsb (N.eqb s) versions || (136 <? s)) then refused (wrong KInvalidRecord (MsgAttrSize s))
      else fun e d1 => if len d1 <? s - 4 then Fault e else
        if forallb (N.eqb 0) (part_of 128 (s - 132) d1) || (s <=? 136) then Takes (s - 4)
        else Fault (wrong KUnsupportedData MsgAttrTail)) (Lex_uint env pl 4 eq_refl)).
    intros l s _ ->. fold o. generalize (number o (part_of 0 4 l)). clear l. intros s. cbv zeta.
    replace (attr_size_ok s) with (existsb (N.eqb s) versions || (136 <? s)) by reflexivity.
    destruct (existsb (N.eqb s) versions || (136 <? s)) eqn:Es; cbn [negb]; [|apply Lex_fail].
    assert (H64 : 64 <= s).
    { apply orb_true_iff in Es as [Es|Es]; [|apply N.ltb_lt in Es; lia].
      apply existsb_exists in Es as (x & Hx & E). apply N.eqb_eq in E. subst x. cbn in Hx. lia. }
    intros l pos Hb. pose proof (split_run env (s - 4) l pos) as Hp. unfold fbind.
    destruct (N.ltb_spec (len l) (s - 4)) as [Hl|Hl]; [destruct Hp as (l' & pos' & ev & ->); reflexivity|].
    destruct Hp as (ev & ->). unfold fcfg, f_sub. cbn [fst snd].
    pose proof (Lex_attr_fields pl (mkEnv (fe_cfg env) eof_error) t s Es eq_refl (take (s - 4) l) pos (bytes_take _ _ Hb)) as H.
    unfold also, plain in H. rewrite len_take, N.min_l in H by lia.
    destruct (N.ltb_spec (s - 4) (N.min s 136 - 8)); [lia|].
    unfold tail_part, nothing, part_of in *.
    destruct (f_attr_fields pl t s _ _ _) as [x l2 p2 ev2|e l2 p2 ev2].
    + destruct H as [_ (n & H & _)]. split; [exact I|]. exists (s - 4). split; [|now repeat split].
      destruct (N.ltb_spec 136 s) as [Hs|Hs].
      * rewrite N.min_r in H by lia. replace (136 - 8) with 128 in H by reflexivity.
        rewrite len_drop, len_take in H. destruct (N.eqb_spec (N.min (s - 4) (len l) - 128) 0); [discriminate|].
        rewrite drop_take in H. replace (s - 4 - 128) with (s - 132) in H by lia.
        destruct (forallb _ _); [reflexivity|discriminate].
      * replace (s <=? 136) with true by (symmetry; apply N.leb_le; lia). now rewrite orb_true_r.
    + destruct (N.ltb_spec 136 s) as [Hs|Hs]; [|discriminate].
      rewrite N.min_r in H by lia. replace (136 - 8) with 128 in H by reflexivity.
      rewrite len_drop, len_take in H. destruct (N.eqb_spec (N.min (s - 4) (len l) - 128) 0); [lia|].
      rewrite drop_take in H. replace (s - 4 - 128) with (s - 132) in H by lia.
      replace (s <=? 136) with false by (symmetry; apply N.leb_gt; lia). rewrite orb_false_r.
      destruct (forallb _ _); [discriminate|exact H].
  - intros d _. unfold attr_part. cbv zeta. unfold also, plain.
    destruct (N.ltb_spec (len d) 4) as [H4|H4].
    { now replace (len d <? 8) with true by (symmetry; apply N.ltb_lt; lia). }
    rewrite len_drop. destruct (N.ltb_spec (len d - 4) 4) as [H8|H8].
    { now replace (len d <? 8) with true by (symmetry; apply N.ltb_lt; lia). }
    replace (len d <? 8) with false by (symmetry; apply N.ltb_ge; lia).
    rewrite !drop_drop. change (4 + 4) with 8.
    replace (part_of 0 4 (drop 4 d)) with (part_of 4 4 d) by (unfold part_of; now rewrite drop_drop).
    set (s := number o (part_of 4 4 d)).
    destruct (existsb (N.eqb s) versions || (136 <? s)) eqn:Es; cbn [negb]; [|reflexivity].
    assert (H64 : 64 <= s).
    { apply orb_true_iff in Es as [Es|Es]; [|apply N.ltb_lt in Es; lia].
      apply existsb_exists in Es as (x & Hx & E). apply N.eqb_eq in E. subst x. cbn in Hx. lia. }
    rewrite len_drop. destruct (N.ltb_spec (len d - 8) (s - 4)), (N.ltb_spec (len d) (s + 4)); try lia; [reflexivity|].
    unfold part_of. rewrite drop_drop. change (8 + 128) with 136.
    destruct (forallb _ _ || (s <=? 136)); [|reflexivity]. f_equal. lia.
Qed.
