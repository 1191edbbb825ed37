(** The flat parsers undo the encoders of Wire.v. *)
From Coq Require Import NArith List Bool Lia.
From Verif Require Import Base BaseFacts Types Platform Config Bits ConfFacts Records Sample
  Record Flat Wire Codec.
Import ListNotations.
Open Scope N_scope.

(** A configuration that stands for some settings. *)
Definition configured (c : config) (w : settings) : Prop :=
  sample_type c = ws_sample_type w /\ read_format c = ws_read_format w /\
  sample_id_all c = ws_id_all w /\ branch_hw_index c = ws_hw_index w /\
  c_regs_user c = ws_regs_user w /\ c_regs_intr c = ws_regs_intr w.

Lemma app_nonnil : forall A (l r : list A), l <> [] -> l ++ r <> [].
Proof. intros A [|x l] r H; [now contradiction H|discriminate]. Qed.

Lemma app_nonnil_r : forall A (l r : list A), r <> [] -> l ++ r <> [].
Proof. intros A [|x l] r H; [exact H|discriminate]. Qed.

Lemma mod8_add : forall a p n, (a + p) mod 8 = 0 -> n mod 8 = 0 -> (a + (p + n)) mod 8 = 0.
Proof. intros a p n H1 H2. rewrite N.add_assoc, N.add_mod, H1, H2 by discriminate. reflexivity. Qed.

Lemma pad8_spec : forall n, (n + pad8 n) mod 8 = 0.
Proof.
  intros n. unfold pad8. rewrite N.add_mod by discriminate. rewrite N.mod_mod by discriminate.
  rewrite <- N.add_mod by discriminate.
  assert (H : n mod 8 < 8) by (apply N.mod_lt; discriminate).
  pose proof (N.div_mod n 8 ltac:(discriminate)) as D.
  set (q := n / 8) in *. set (r := n mod 8) in *.
  replace (n + (8 - r)) with (0 + (q + 1) * 8) by lia. now rewrite N.mod_add.
Qed.

Lemma pad8_eq : forall n, pad8 n = if n mod 8 =? 0 then 0 else 8 - n mod 8.
Proof.
  intros n. unfold pad8. assert (H : n mod 8 < 8) by (apply N.mod_lt; discriminate).
  destruct (N.eqb_spec (n mod 8) 0) as [->|E]; [reflexivity|]. apply N.mod_small. revert H E. generalize (n mod 8). intros r H E. lia.
Qed.

Section Rt.
Context (pl : platform) (Hpl : pl_ok pl) (a0 : N) (poke : bool) (env : fenv).

Let o := order_of pl (c_endian (fe_cfg env)).

Definition ev_fine (e : event) : Prop :=
  match e with ESlice _ p => (a0 + p) mod 8 = 0 | EPoke => poke = true end.

(** [f] reads [bs] as [b] when [rest] follows. *)
Definition Rt {B : Type} (f : F B) (bs : list N) (b : B) (rest : list N) (pos : N) : Prop :=
  exists ev, f env (bs ++ rest) pos = FOk b rest (pos + len bs) ev /\ Forall ev_fine ev.

Lemma Rt_ret : forall B (b : B) rest pos, Rt (fret b) [] b rest pos.
Proof. intros B b rest pos. exists []. split; [|constructor]. cbn. now rewrite N.add_0_r. Qed.

Lemma Rt_ret_eq : forall B (b b' : B) rest pos, b = b' -> Rt (fret b) [] b' rest pos.
Proof. intros; subst; apply Rt_ret. Qed.

Lemma Rt_cfg : forall rest pos, Rt fcfg [] (fe_cfg env) rest pos.
Proof. intros rest pos. exists []. split; [|constructor]. cbn. now rewrite N.add_0_r. Qed.

Lemma Rt_bind : forall B C (m : F B) (k : B -> F C) bs1 b1 bs2 b2 rest pos,
  Rt m bs1 b1 (bs2 ++ rest) pos -> Rt (k b1) bs2 b2 rest (pos + len bs1) ->
  Rt (fbind m k) (bs1 ++ bs2) b2 rest pos.
Proof.
  intros B C m k bs1 b1 bs2 b2 rest pos [ev1 [E1 H1]] [ev2 [E2 H2]].
  exists (ev1 ++ ev2). split; [|now apply Forall_app].
  unfold fbind. rewrite <- app_assoc, E1, E2, len_app, N.add_assoc. reflexivity.
Qed.

Lemma Rt_bind0 : forall B C (m : F B) (k : B -> F C) b1 bs2 b2 rest pos,
  Rt m [] b1 (bs2 ++ rest) pos -> Rt (k b1) bs2 b2 rest pos ->
  Rt (fbind m k) bs2 b2 rest pos.
Proof.
  intros B C m k b1 bs2 b2 rest pos H1 H2. change bs2 with ([] ++ bs2).
  eapply Rt_bind; [exact H1|]. rewrite len_nil, N.add_0_r. exact H2.
Qed.

Lemma Rt_last : forall B C (m : F B) (k : B -> F C) bs b1 b2 rest pos,
  Rt m bs b1 rest pos -> Rt (k b1) [] b2 rest (pos + len bs) ->
  Rt (fbind m k) bs b2 rest pos.
Proof.
  intros B C m k bs b1 b2 rest pos H1 H2. rewrite <- (app_nil_r bs).
  eapply Rt_bind; [exact H1|exact H2].
Qed.

Lemma Rt_take : forall d rest pos n, n = len d -> d ++ rest <> [] ->
  Rt (f_take n) d d rest pos.
Proof.
  intros d rest pos n -> Hne. exists []. split; [|constructor]. unfold f_take.
  destruct (d ++ rest) eqn:E; [contradiction|]. rewrite <- E. clear E.
  destruct (N.ltb_spec (len (d ++ rest)) (len d)) as [H|H]; [rewrite len_app in H; lia|].
  now rewrite take_app_exact, drop_app_exact.
Qed.

Lemma Rt_take_event : forall b e bs B (k : unit -> F B) x rest pos,
  (b = true -> ev_fine e) -> Rt (k tt) bs x rest pos ->
  Rt (fbind (f_event b e) k) bs x rest pos.
Proof.
  intros b e bs B k x rest pos He [ev [E H]]. exists ((if b then [e] else []) ++ ev). split.
  - unfold fbind, f_event. rewrite E. reflexivity.
  - apply Forall_app. split; [|exact H]. destruct b; constructor; [now apply He|constructor].
Qed.

Lemma Rt_uint : forall (n : nat) v rest pos, (0 < n)%nat -> v < 256 ^ N.of_nat n ->
  Rt (f_uint pl (N.of_nat n)) (enc o n v) v rest pos.
Proof.
  intros n v rest pos Hn Hv. unfold f_uint.
  eapply Rt_last.
  - apply Rt_take; [now rewrite enc_len|].
    apply app_nonnil. intros E. apply (f_equal (@length N)) in E. rewrite enc_length in E. cbn in E. lia.
  - eapply Rt_bind0; [apply Rt_cfg|]. apply Rt_ret_eq. now apply from_enc.
Qed.

Lemma Rt_u8 : forall v rest pos, v < 256 -> Rt (f_uint pl 1) (w8 o v) v rest pos.
Proof. intros. apply (Rt_uint 1); [lia|assumption]. Qed.
Lemma Rt_u16 : forall v rest pos, v < 2 ^ 16 -> Rt (f_uint pl 2) (w16 o v) v rest pos.
Proof. intros. apply (Rt_uint 2); [lia|assumption]. Qed.
Lemma Rt_u32 : forall v rest pos, v < 2 ^ 32 -> Rt (f_uint pl 4) (w32 o v) v rest pos.
Proof. intros. apply (Rt_uint 4); [lia|assumption]. Qed.
Lemma Rt_u64 : forall v rest pos, v < 2 ^ 64 -> Rt (f_uint pl 8) (w64 o v) v rest pos.
Proof. intros. apply (Rt_uint 8); [lia|assumption]. Qed.

Lemma Rt_if : forall B b (m : F B) bs x rest pos,
  (b = true -> Rt m bs x rest pos) ->
  Rt (f_if b m) (w_if b bs) (if b then Some x else None) rest pos.
Proof.
  intros B [] m bs x rest pos H; cbn [f_if w_if].
  - eapply Rt_last; [now apply H|]. apply Rt_ret.
  - apply Rt_ret.
Qed.

Lemma field_eq : forall b bound x, field b bound x -> (if b then Some (val x) else None) = x.
Proof. intros b bound [v|] H; cbn in *; [destruct H as [-> _]|subst b]; reflexivity. Qed.

Lemma field_lt : forall b bound x, field b bound x -> b = true -> val x < bound.
Proof. intros b bound [v|] H Hb; cbn in *; [tauto|congruence]. Qed.

Lemma Rt_f64 : forall b x rest pos, field b (2 ^ 64) x ->
  Rt (f_if b (f_uint pl 8)) (w_if b (w64 o (val x))) x rest pos.
Proof.
  intros b x rest pos H. rewrite <- (field_eq b _ x H) at 2.
  apply Rt_if. intros Hb. apply Rt_u64. exact (field_lt _ _ _ H Hb).
Qed.

(** A value present if one of two bits is set. *)
Lemma Rt_f64_or : forall b b' x rest pos, field b' (2 ^ 64) x -> (b = true -> b' = true) ->
  Rt (f_if b (f_uint pl 8)) (w_if b (w64 o (val x))) (if b then x else None) rest pos.
Proof.
  intros b b' x rest pos H Hi.
  replace (if b then x else None) with (if b then Some (val x) else None).
  - apply Rt_if. intros Hb. apply Rt_u64. exact (field_lt _ _ _ H (Hi Hb)).
  - destruct b; [|reflexivity]. rewrite <- (field_eq b' _ x H) at 2. now rewrite Hi.
Qed.

Lemma Rt_f32x2 : forall C b x y (k : option N -> option N -> F C) bs c rest pos,
  field b (2 ^ 32) x -> field b (2 ^ 32) y ->
  Rt (k x y) bs c rest (pos + len (w_if b (w32 o (val x) ++ w32 o (val y)))) ->
  Rt (x <~ f_if b (f_uint pl 4) ;; y <~ f_if b (f_uint pl 4) ;; k x y)
     (w_if b (w32 o (val x) ++ w32 o (val y)) ++ bs) c rest pos.
Proof.
  intros C b x y k bs c rest pos Hx Hy Hk.
  replace (w_if b (w32 o (val x) ++ w32 o (val y)) ++ bs)
    with (w_if b (w32 o (val x)) ++ w_if b (w32 o (val y)) ++ bs)
    by (destruct b; cbn [w_if]; now rewrite ?app_assoc).
  assert (H32 : forall z rest pos, field b (2 ^ 32) z ->
            Rt (f_if b (f_uint pl 4)) (w_if b (w32 o (val z))) z rest pos).
  { intros z r q Hz. rewrite <- (field_eq b _ z Hz) at 2. apply Rt_if. intros Hb. apply Rt_u32.
    exact (field_lt _ _ _ Hz Hb). }
  eapply Rt_bind; [apply H32; exact Hx|]. eapply Rt_bind; [apply H32; exact Hy|].
  replace (pos + len (w_if b (w32 o (val x))) + len (w_if b (w32 o (val y))))
    with (pos + len (w_if b (w32 o (val x) ++ w32 o (val y)))); [exact Hk|].
  destruct b; cbn [w_if]; rewrite ?len_app, ?len_nil; lia.
Qed.

Lemma Rt_cpu : forall b x rest pos, field b (2 ^ 32) x ->
  Rt (f_if b (a <~ f_uint pl 4 ;; _ <~ f_uint pl 4 ;; fret a))
     (w_if b (w32 o (val x) ++ w32 o 0)) x rest pos.
Proof.
  intros b x rest pos H. rewrite <- (field_eq b _ x H) at 2. apply Rt_if. intros Hb.
  eapply Rt_bind; [apply Rt_u32; exact (field_lt _ _ _ H Hb)|].
  eapply Rt_last; [apply Rt_u32; reflexivity|]. apply Rt_ret.
Qed.

Lemma Rt_opt : forall A b (m : F A) (f : A -> list N) x rest pos,
  has b x -> (forall v, b = true -> x = Some v -> Rt m (f v) v rest pos) ->
  Rt (f_if b m) (w_opt b x f) x rest pos.
Proof.
  intros A b m f x rest pos Hh H. destruct b, x as [v|]; cbn [has w_opt w_if f_if] in *; try discriminate.
  - eapply Rt_last; [now apply H|]. apply Rt_ret.
  - contradiction Hh. reflexivity.
  - apply Rt_ret.
Qed.

Lemma order_eqb_refl : forall x, order_eqb x x = true.
Proof. now destruct x. Qed.

Lemma Rt_array : forall B (E : felem B) (f : B -> list N) n (l : list B) rest pos,
  n = len l -> 0 < fl_size E -> (forall x, len (f x) = fl_size E) ->
  Forall (fun x => fl_dec E o (f x) = x) l ->
  len (w_list f l) <= usize_max pl ->
  (o = pl_host pl -> l = [] -> rest <> []) -> (a0 + pos) mod 8 = 0 ->
  Rt (f_array pl E n) (w_list f l) l rest pos.
Proof.
  intros B E f n l rest pos -> Hs Hl Hd Hm Hne Ha.
  assert (Hsz : len (w_list f l) = len l * fl_size E) by now apply w_list_len.
  unfold Rt. unfold f_array. fold o. cbv zeta. rewrite <- Hsz.
  replace (usize_max pl <? len (w_list f l)) with false by (symmetry; apply N.ltb_ge; exact Hm).
  rewrite andb_false_r.
  replace (order_eqb o (pl_host pl) && (len (w_list f l ++ rest) =? 0)) with false.
  2:{ symmetry. destruct (order_eqb o (pl_host pl)) eqn:Eo; [|reflexivity]. apply N.eqb_neq.
      assert (Eh : o = pl_host pl) by now destruct o, (pl_host pl).
      rewrite len_app. destruct l as [|x t].
      - specialize (Hne Eh eq_refl). apply len_pos in Hne. lia.
      - rewrite len_cons in Hsz. nia. }
  replace (len (w_list f l ++ rest) <? len (w_list f l)) with false
    by (symmetry; apply N.ltb_ge; rewrite len_app; lia).
  rewrite take_app_exact, drop_app_exact, decode_list by (reflexivity || assumption).
  eexists. split; [reflexivity|].
  destruct (order_eqb o (pl_host pl) && negb (len l =? 0)); constructor; [exact Ha|constructor].
Qed.

Lemma usize_big : 65535 <= usize_max pl.
Proof. unfold usize_max. destruct Hpl as [-> | ->]; cbn; lia. Qed.

Lemma usize_64 : usize_max pl < 2 ^ 64.
Proof. unfold usize_max. destruct Hpl as [-> | ->]; reflexivity. Qed.

Lemma as_usize_small : forall n, n <= usize_max pl -> as_usize pl n = n.
Proof.
  intros n Hn. unfold as_usize. apply N.mod_small. unfold usize_max in Hn.
  assert (2 ^ pl_bits pl <> 0) by now apply N.pow_nonzero. lia.
Qed.

Lemma Rt_u64s : forall n l rest pos, n = len l -> below (2 ^ 64) l -> len (w_list (w64 o) l) <= usize_max pl ->
  (o = pl_host pl -> l = [] -> rest <> []) -> (a0 + pos) mod 8 = 0 ->
  Rt (f_array pl fl_u64 n) (w_list (w64 o) l) l rest pos.
Proof.
  intros n l rest pos Hn Hl Hlen Hne Ha. apply Rt_array; try assumption.
  - reflexivity.
  - intros x. apply w64_len.
  - eapply Forall_impl; [|exact Hl]. intros v Hv. now apply dec_u64.
Qed.

Lemma strip_str : forall s k, last s 1 <> 0 -> strip (s ++ zeros k) = s.
Proof.
  intros s k Hl. unfold strip. rewrite rev_app_distr.
  assert (Hz : rev (zeros k) = zeros k).
  { unfold zeros. induction (N.to_nat k) as [|n IH]; [reflexivity|]. cbn [repeat rev]. rewrite IH.
    clear. induction n; [reflexivity|]. cbn [repeat app]. now rewrite IHn. }
  rewrite Hz.
  assert (Hs : forall n r, skip_zeros (repeat 0 n ++ r) = skip_zeros r) by (induction n; intros; [reflexivity|apply IHn]).
  unfold zeros. rewrite Hs.
  destruct s as [|x s] using rev_ind; [reflexivity|].
  rewrite last_last in Hl. rewrite rev_app_distr. cbn [rev app skip_zeros].
  destruct (N.eqb_spec x 0) as [E|E]; [contradiction|]. cbn [rev]. now rewrite rev_involutive.
Qed.

Lemma Rt_string : forall s k pos, is_eof (fe_fin env) = true -> str_ok s k ->
  Rt f_string (w_str s k) s [] pos.
Proof.
  intros s k pos Hf [_ [Hl Hk]]. unfold f_string.
  assert (Hne : w_str s k <> []).
  { intros E. apply (f_equal len) in E. unfold w_str in E. rewrite len_app, zeros_len in E. cbn in E. lia. }
  eapply Rt_last.
  - instantiate (1 := w_str s k). exists []. split; [|constructor]. rewrite app_nil_r.
    unfold f_rest. rewrite Hf. destruct (w_str s k); [contradiction|reflexivity].
  - apply Rt_ret_eq. now apply strip_str.
Qed.

Lemma Rt_rest : forall d pos, is_eof (fe_fin env) = true -> d <> [] -> Rt f_rest d d [] pos.
Proof.
  intros d pos Hf Hne. exists []. split; [|constructor]. rewrite app_nil_r.
  unfold f_rest. rewrite Hf. destruct d; [contradiction|reflexivity].
Qed.

(** READ values. *)
Section Settings.
Context (w : settings) (Hw : configured (fe_cfg env) w).

Lemma cfg_sbit : forall k, contains (sample_type (fe_cfg env)) (2 ^ k) = sbit w k.
Proof. intros k. destruct Hw as [-> _]. apply contains_pow2. Qed.

Lemma cfg_rbit : forall k, contains (read_format (fe_cfg env)) (2 ^ k) = rbit w k.
Proof. intros k. destruct Hw as [_ [-> _]]. apply contains_pow2. Qed.

Lemma num_if : forall b v, num b v -> unwrap_or (if b then Some v else None) 0 = v.
Proof. intros [] v H; cbn in *; congruence. Qed.

Lemma num_lt : forall b v, num b v -> v < 2 ^ 64.
Proof. intros [] v H; cbn [num] in H; [exact H|subst; reflexivity]. Qed.

Lemma Rt_num : forall b v rest pos, num b v ->
  Rt (f_if b (f_uint pl 8)) (w_if b (w64 o v)) (if b then Some v else None) rest pos.
Proof. intros b v rest pos H. apply Rt_if. intros _. apply Rt_u64. exact (num_lt _ _ H). Qed.

Definition known_format : Prop := ws_read_format w < 2 ^ 5.

Lemma known_difference : forall rf, rf < 2 ^ 5 -> difference rf RF_ALL = 0.
Proof.
  intros rf H. apply N.bits_inj; intros i. unfold difference. rewrite N.ldiff_spec, N.bits_0.
  destruct (N.ltb_spec i 5) as [Hi|Hi].
  - replace (N.testbit RF_ALL i) with true; [apply andb_false_r|].
    change RF_ALL with (N.ones 5). now rewrite N.ones_spec_low.
  - rewrite (testbit_high rf 5 i H Hi). reflexivity.
Qed.

Lemma Rt_read_value : forall v rest pos, known_format -> rbit w 3 = false -> read_value_ok w v ->
  Rt (f_read_value pl) (w_read_value o w v) v rest pos.
Proof.
  intros v rest pos Hk Hg [Hf [Hv [Hte [Htr [Hid Hlo]]]]]. unfold f_read_value.
  eapply Rt_bind0; [apply Rt_cfg|]. cbv beta zeta.
  unfold RF_GROUP, RF_TIME_ENABLED, RF_TIME_RUNNING, RF_ID, RF_LOST. rewrite !cfg_rbit, Hg.
  rewrite known_difference by (destruct Hw as [_ [-> _]]; exact Hk). cbn [N.eqb negb].
  unfold w_read_value. eapply Rt_bind; [now apply Rt_u64|].
  eapply Rt_bind; [now apply Rt_num|]. eapply Rt_bind; [now apply Rt_num|].
  eapply Rt_bind; [now apply Rt_num|]. eapply Rt_last; [now apply Rt_num|].
  apply Rt_ret_eq. rewrite !num_if by assumption. destruct v as [f x te tr i lo]; cbn [rv_format rv_value rv_enabled rv_running rv_id rv_lost] in *.
  f_equal. destruct Hw as [_ [-> _]]. symmetry. exact Hf.
Qed.

Lemma counter_words_len : forall k, len (counter_words w k) = element_len (ws_read_format w).
Proof.
  intros k. rewrite element_len_eq. unfold counter_words, rbit.
  destruct (N.testbit (ws_read_format w) 2), (N.testbit (ws_read_format w) 4); reflexivity.
Qed.

Lemma counter_words_enc : forall k, w_list (w64 o) (counter_words w k) = w_counter o w k.
Proof.
  intros k. unfold counter_words, w_counter, w_list.
  destruct (rbit w 2), (rbit w 4); cbn [map concat app w_if]; rewrite ?app_nil_r; reflexivity.
Qed.

Lemma group_words_len : forall ks,
  len (concat (map (counter_words w) ks)) = len ks * element_len (ws_read_format w).
Proof.
  intros ks. induction ks as [|k t IH]; [reflexivity|].
  cbn [map concat]. rewrite len_app, IH, counter_words_len, len_cons. lia.
Qed.

Lemma group_words_below : forall ks, Forall (counter_ok w) ks ->
  below (2 ^ 64) (concat (map (counter_words w) ks)).
Proof.
  intros ks H. induction H as [|k t [Hv [Hi Hl]] Ht IH]; [constructor|].
  cbn [map concat]. apply Forall_app. split; [|exact IH]. unfold counter_words.
  constructor; [exact Hv|]. apply Forall_app. split.
  - destruct (rbit w 2); constructor; [exact Hi|constructor].
  - destruct (rbit w 4); constructor; [exact Hl|constructor].
Qed.

Lemma element_len_pos : forall rf, 1 <= element_len rf <= 3.
Proof. intros rf. rewrite element_len_eq. destruct (N.testbit rf 2), (N.testbit rf 4); cbn; lia. Qed.

Lemma Rt_read_group : forall te tr ks rest pos, known_format -> rbit w 3 = true ->
  num (rbit w 0) te -> num (rbit w 1) tr -> Forall (counter_ok w) ks ->
  len (w_group o w te tr ks) <= usize_max pl -> (o = pl_host pl -> ks = [] -> rest <> []) -> (a0 + pos) mod 8 = 0 ->
  Rt (f_read_group pl) (w_group o w te tr ks) (group_of w (VGroup te tr ks)) rest pos.
Proof.
  intros te tr ks rest pos Hk Hg Hte Htr Hks Hlen Hne Ha. unfold f_read_group.
  eapply Rt_bind0; [apply Rt_cfg|]. cbv beta zeta.
  unfold RF_GROUP, RF_TIME_ENABLED, RF_TIME_RUNNING. rewrite !cfg_rbit, Hg. cbn [negb].
  rewrite known_difference by (destruct Hw as [_ [-> _]]; exact Hk). cbn [N.eqb negb].
  assert (Henc : w_list (w_counter o w) ks = w_list (w64 o) (concat (map (counter_words w) ks))).
  { rewrite w_list_concat. apply w_list_ext. intros k. symmetry. apply counter_words_enc. }
  assert (El : len (w_list (w_counter o w) ks) = len ks * element_len (ws_read_format w) * 8).
  { rewrite Henc, (w_list_len _ _ 8) by apply w64_len. now rewrite group_words_len. }
  assert (Hsmall : len ks * element_len (ws_read_format w) * 8 <= usize_max pl).
  { rewrite <- El. unfold w_group in Hlen. rewrite !len_app in Hlen. lia. }
  pose proof (element_len_pos (ws_read_format w)) as Hel.
  unfold w_group. eapply Rt_bind; [apply Rt_u64; pose proof usize_64; nia|].
  eapply Rt_bind; [now apply Rt_num|]. eapply Rt_bind; [now apply Rt_num|]. cbv beta.
  rewrite as_usize_small by nia.
  replace (read_format (fe_cfg env)) with (ws_read_format w) by (symmetry; apply Hw).
  replace (usize_max pl <? len ks * element_len (ws_read_format w)) with false
    by (symmetry; apply N.ltb_ge; pose proof usize_big; nia).
  rewrite Henc. eapply Rt_last.
  - apply Rt_u64s.
    + now rewrite group_words_len.
    + now apply group_words_below.
    + rewrite <- Henc, El. exact Hsmall.
    + intros Eh E. apply (Hne Eh). destruct ks as [|k t]; [reflexivity|].
      apply (f_equal len) in E. rewrite group_words_len, len_cons in E. rewrite len_nil in E. nia.
    + rewrite !w_if_len, !w64_len.
      replace (pos + 8 + (if rbit w 0 then 8 else 0) + (if rbit w 1 then 8 else 0))
        with (pos + (8 + (if rbit w 0 then 8 else 0) + (if rbit w 1 then 8 else 0))) by lia.
      apply mod8_add; [exact Ha|]. destruct (rbit w 0), (rbit w 1); reflexivity.
  - apply Rt_ret_eq. now rewrite !num_if by assumption.
Qed.

Lemma Rt_values : forall v rest pos, known_format -> values_ok w v ->
  len (w_values o w v) <= usize_max pl -> (o = pl_host pl -> values_count v = 0 -> rest <> []) -> (a0 + pos) mod 8 = 0 ->
  Rt (f_sample_read pl) (w_values o w v) (group_of w v) rest pos.
Proof.
  intros v rest pos Hk Hv Hlen Hne Ha. unfold f_sample_read.
  eapply Rt_bind0; [apply Rt_cfg|]. cbv beta. unfold RF_GROUP. rewrite cfg_rbit.
  destruct v as [v|te tr ks]; cbn [values_ok w_values] in *.
  - destruct Hv as [Hg Hv]. rewrite Hg. eapply Rt_last; [now apply Rt_read_value|].
    apply Rt_ret_eq. unfold f_group_of_value, group_of. destruct Hv as [Hf _].
    rewrite Hf. f_equal. unfold rv_get_id, rv_get_lost, RF_ID, RF_LOST, then_some.
    rewrite Hf, !contains_pow2. fold (rbit w 2). fold (rbit w 4). unfold counter_words.
    cbn [ct_value ct_id ct_lost]. now destruct (rbit w 2), (rbit w 4).
  - destruct Hv as [Hg [Hte [Htr Hks]]]. rewrite Hg. apply Rt_read_group; try assumption.
    intros Eh ->. now apply Hne.
Qed.

(** Other fields of a sample. *)
Lemma Rt_callchain : forall l rest pos, below (2 ^ 64) l -> len (w64 o (len l) ++ w_list (w64 o) l) <= usize_max pl ->
  (o = pl_host pl -> len l = 0 -> rest <> []) -> (a0 + pos) mod 8 = 0 ->
  Rt (f_callchain pl) (w64 o (len l) ++ w_list (w64 o) l) l rest pos.
Proof.
  intros l rest pos Hl Hlen Hne Ha. unfold f_callchain.
  rewrite len_app in Hlen.
  assert (Hn : len l <= usize_max pl) by (rewrite (w_list_len _ _ 8) in Hlen by apply w64_len; lia).
  eapply Rt_bind; [apply Rt_u64; pose proof usize_64; lia|].
  rewrite as_usize_small by assumption. apply Rt_u64s; [reflexivity|assumption|lia| |].
  - intros Eh ->. now apply Hne.
  - rewrite w64_len. now apply mod8_add.
Qed.

Lemma Rt_lbr : forall (hw : option N) l rest pos, Forall branch_ok l ->
  field (ws_hw_index w) (2 ^ 64) hw ->
  len (w64 o (len l) ++ w_if (ws_hw_index w) (w64 o (val hw)) ++ w_list (w_branch o) l) <= usize_max pl ->
  (o = pl_host pl -> len l = 0 -> rest <> []) -> (a0 + pos) mod 8 = 0 ->
  Rt (f_lbr pl (branch_hw_index (fe_cfg env)))
     (w64 o (len l) ++ w_if (ws_hw_index w) (w64 o (val hw)) ++ w_list (w_branch o) l)
     (l, hw) rest pos.
Proof.
  intros hw l rest pos Hl Hh Hlen Hne Ha. unfold f_lbr.
  replace (branch_hw_index (fe_cfg env)) with (ws_hw_index w) by (symmetry; apply Hw).
  rewrite !len_app in Hlen.
  assert (Hn : len l <= usize_max pl) by (rewrite (w_list_len _ _ 24) in Hlen by apply w_branch_len; lia).
  eapply Rt_bind; [apply Rt_u64; pose proof usize_64; lia|].
  eapply Rt_bind; [apply Rt_f64; exact Hh|]. cbv beta.
  rewrite as_usize_small by assumption.
  eapply Rt_last; [|apply Rt_ret].
  apply Rt_array; try reflexivity.
  - intros x. apply w_branch_len.
  - eapply Forall_impl; [|exact Hl]. intros b Hb. now apply dec_branch.
  - pose proof usize_big. lia.
  - intros Eh ->. now apply Hne.
  - rewrite w_if_len, !w64_len. rewrite <- N.add_assoc. apply mod8_add; [exact Ha|].
    destruct (ws_hw_index w); reflexivity.
Qed.

Lemma Rt_regs : forall mask r rest pos, regs_ok mask r -> len (rg_regs r) = bits_set (rg_mask r) ->
  (o = pl_host pl -> len (rg_regs r) = 0 -> rest <> []) -> (a0 + pos) mod 8 = 0 ->
  Rt (f_registers pl mask) (w_regs o r) r rest pos.
Proof.
  intros mask r rest pos [Habi [Hm [Hm64 [Hl Hb]]]] Hd Hne Ha. unfold f_registers, w_regs.
  replace (w_if (negb (rg_abi r =? 0)) (w_list (w64 o) (rg_regs r))) with (w_list (w64 o) (rg_regs r)).
  2:{ destruct (rg_abi r =? 0); [|reflexivity]. destruct (rg_regs r) as [|x l]; [reflexivity|].
      rewrite len_cons in Hl. lia. }
  rewrite Hm in Hd. clear Hl. rename Hd into Hl.
  eapply Rt_bind; [now apply Rt_u64|].
  rewrite popcount_bits_set by assumption.
  eapply Rt_last.
  - apply Rt_u64s; [now symmetry|assumption| | |].
    + rewrite (w_list_len _ _ 8) by apply w64_len. rewrite Hl. pose proof (bits_set_le mask). pose proof usize_big. lia.
    + intros Eh E. apply (Hne Eh). now rewrite E.
    + rewrite w64_len. now apply mod8_add.
  - apply Rt_ret_eq. destruct r; cbn in *. now subst.
Qed.

(** Whatever the padding. *)
Lemma Rt_raw_pad : forall d pad rest pos, len d < 2 ^ 32 -> len pad = pad8 (4 + len d) ->
  Rt (f_raw pl) (w32 o (len d) ++ d ++ pad) d rest pos.
Proof.
  intros d pad rest pos H32 Hpad. unfold f_raw.
  assert (Hlen : len d <= usize_max pl).
  { unfold usize_max. assert (2 ^ 32 <= 2 ^ pl_bits pl) by (destruct Hpl as [-> | ->]; discriminate). lia. }
  assert (Hm : Rt (n <~ f_uint pl 4 ;; f_take (as_usize pl n)) (w32 o (len d) ++ d) d
                  (pad ++ rest) pos).
  { eapply Rt_bind; [apply Rt_u32; exact H32|].
    apply Rt_take; [apply as_usize_small; lia|].
    destruct d as [|x t]; [|discriminate]. change (pad8 (4 + len (@nil N))) with 4 in Hpad.
    destruct pad; [discriminate|]. discriminate. }
  destruct Hm as [ev [E Hev]]. unfold Rt. unfold f_padded.
  exists (ev ++ []). split; [|rewrite app_nil_r; exact Hev].
  unfold fbind at 1. rewrite <- !app_assoc. rewrite <- app_assoc in E. rewrite E.
  rewrite !len_app, w32_len, Hpad.
  replace (pos + (4 + len d) - pos) with (4 + len d) by lia. rewrite <- pad8_eq.
  set (k := pad8 (4 + len d)) in *. unfold f_skip. destruct (N.eqb_spec k 0) as [E0|E0].
  - rewrite E0 in Hpad |- *. apply len_0 in Hpad. subst pad. unfold fbind, fret. cbn [app].
    now rewrite N.add_0_r.
  - unfold fbind, f_take.
    destruct (pad ++ rest) eqn:Ez.
    { exfalso. apply (f_equal len) in Ez. rewrite len_app, Hpad in Ez. cbn in Ez. lia. }
    rewrite <- Ez.
    replace (len (pad ++ rest) <? k) with false
      by (symmetry; apply N.ltb_ge; rewrite len_app, Hpad; lia).
    rewrite drop_app_exact by now rewrite Hpad.
    unfold fret. cbn [app]. replace (pos + (4 + len d) + k) with (pos + (4 + (len d + k))) by lia.
    reflexivity.
Qed.

Lemma Rt_raw : forall d rest pos, len d < 2 ^ 32 ->
  Rt (f_raw pl) (raw_bytes o d) d rest pos.
Proof. intros d rest pos H. apply Rt_raw_pad; [exact H|apply zeros_len]. Qed.

Lemma Rt_stack_cut : forall dump k rest pos, len (w_stack o dump k) <= usize_max pl ->
  k <= len dump -> (len dump = 0 -> rest <> []) ->
  Rt (f_stack_user pl) (w_stack o dump k) (take k dump) rest pos.
Proof.
  intros dump k rest pos Hlen Hk Hne. unfold f_stack_user, w_stack in *.
  rewrite !len_app, w64_len in Hlen.
  eapply Rt_bind; [apply Rt_u64; pose proof usize_64; lia|].
  cbv beta. rewrite as_usize_small by lia.
  eapply Rt_bind.
  { apply Rt_take; [reflexivity|]. destruct (len dump =? 0) eqn:E0.
    - apply N.eqb_eq in E0. apply app_nonnil_r. apply app_nonnil_r. now apply Hne.
    - apply app_nonnil. apply N.eqb_neq in E0. intros E1. rewrite E1 in E0. now apply E0. }
  cbv beta. destruct (N.eqb_spec (len dump) 0) as [E|E]; cbn [negb w_if].
  - eapply Rt_bind0; [apply Rt_ret|]. cbv beta.
    apply len_0 in E. subst dump. rewrite take_nil. apply Rt_ret.
  - eapply Rt_last.
    + eapply Rt_last; [apply Rt_u64; pose proof usize_64; lia|]. apply Rt_ret.
    + cbv beta. rewrite as_usize_small by lia.
      replace (len dump <? k) with false by (symmetry; apply N.ltb_ge; lia).
      apply Rt_ret.
Qed.

Lemma Rt_stack : forall d tail rest pos, len (w_stack o (d ++ tail) (len d)) <= usize_max pl ->
  (len (d ++ tail) = 0 -> rest <> []) ->
  Rt (f_stack_user pl) (w_stack o (d ++ tail) (len d)) d rest pos.
Proof.
  intros d tail rest pos Hlen Hne.
  rewrite <- (take_app_exact (len d) d tail eq_refl) at 3.
  apply Rt_stack_cut; [exact Hlen|rewrite len_app; lia|exact Hne].
Qed.

Lemma Rt_aux : forall d rest pos, len (w64 o (len d) ++ d) <= usize_max pl -> (len d = 0 -> rest <> []) ->
  Rt (f_sample_aux pl) (w64 o (len d) ++ d) d rest pos.
Proof.
  intros d rest pos Hlen Hne. unfold f_sample_aux. rewrite len_app, w64_len in Hlen.
  eapply Rt_bind; [apply Rt_u64; pose proof usize_64; lia|].
  apply Rt_take; [apply as_usize_small; lia|].
  destruct d as [|x t]; [|discriminate]. apply app_nonnil_r. now apply Hne.
Qed.

(** The sample_id trailer. *)
Lemma Rt_sample_id : forall si rest pos, sample_id_ok w si ->
  Rt (f_sample_id pl) (w_sample_id o w si) si rest pos.
Proof.
  intros si rest pos [Hpid [Htid [Htime [Hid [Hsid Hcpu]]]]]. unfold f_sample_id.
  eapply Rt_bind0; [apply Rt_cfg|]. cbv beta zeta.
  unfold SF_TID, SF_TIME, SF_ID, SF_STREAM_ID, SF_CPU, SF_IDENTIFIER. rewrite !cfg_sbit.
  replace (sample_id_all (fe_cfg env)) with (ws_id_all w) by (symmetry; apply Hw).
  unfold w_sample_id. destruct (ws_id_all w); cbn [negb w_if andb] in *.
  - apply Rt_f32x2; [exact Hpid|exact Htid|].
    eapply Rt_bind; [apply Rt_f64; exact Htime|].
    eapply Rt_bind; [eapply Rt_f64_or; [exact Hid|intros ->; reflexivity]|].
    eapply Rt_bind; [apply Rt_f64; exact Hsid|].
    eapply Rt_bind; [apply Rt_cpu; exact Hcpu|].
    eapply Rt_last; [eapply Rt_f64_or; [exact Hid|intros ->; apply orb_true_r]|].
    apply Rt_ret_eq. destruct si as [a b c d e f]; cbn in *. f_equal.
    destruct d; destruct (sbit w 6), (sbit w 16); cbn in *; try reflexivity; destruct Hid; discriminate.
  - apply Rt_ret_eq. destruct si as [a b c d e f]; cbn in *. unfold sample_id_default.
    unfold field in *.
    destruct a; [destruct Hpid; discriminate|]. destruct b; [destruct Htid; discriminate|].
    destruct c; [destruct Htime; discriminate|]. destruct d; [destruct Hid; discriminate|].
    destruct e; [destruct Hsid; discriminate|]. destruct f; [destruct Hcpu; discriminate|reflexivity].
Qed.

End Settings.
End Rt.
