(** The parts of records accept exactly the layouts of Accept.v. *)
From Coq Require Import NArith List Bool Lia.
From Verif Require Import Base BaseFacts Types Platform Config Bits ConfFacts Records Sample
  Record Flat Wire Codec Roundtrip RtSample RtRecord Accept AcceptFacts.
Import ListNotations.
Open Scope N_scope.

Lemma known_only : forall rf, difference rf RF_ALL = 0 -> rf < 2 ^ 5.
Proof.
  intros rf H. destruct (N.eq_dec rf 0) as [->|Hn]; [reflexivity|].
  destruct (N.lt_ge_cases rf (2 ^ 5)) as [L|L]; [exact L|]. exfalso.
  assert (Hl : 5 <= N.log2 rf) by (change 5 with (N.log2 (2 ^ 5)); now apply N.log2_le_mono).
  assert (Ht : N.testbit rf (N.log2 rf) = true) by now apply N.bit_log2.
  assert (Hd : N.testbit (difference rf RF_ALL) (N.log2 rf) = true).
  { unfold difference. rewrite N.ldiff_spec, Ht. change RF_ALL with (N.ones 5).
    now rewrite N.ones_spec_high. }
  rewrite H, N.bits_0 in Hd. discriminate.
Qed.

Section Parts.
Context (pl : platform) (Hpl : pl_ok pl) (env : fenv) (lim : N) (Hlim : lim <= usize_max pl).
Context (w : settings) (Hw : configured (fe_cfg env) w).

Let o := order_of pl (c_endian (fe_cfg env)).
Notation Sd := (Snd env lim).
Notation Rn := (Runs env).
Notation count := (l_count (pl_bits pl) o).
Notation arr := (in_host o (pl_host pl)).

(** [f] accepts, as [g a], exactly what fits [lay a], for all [a] that are [given].
    Where [d a] something must follow. *)
Definition part {A B : Type} (f : F B) (g : A -> B) (given : A -> Prop) (lay : A -> layout) (d : A -> bool) : Prop :=
  Sd f (fun b bs rest => exists a, b = g a /\ given a /\ fits (lay a) bs /\ (d a = true -> rest <> [])) /\
  (forall a bs rest pos, given a -> bytes bs -> len bs <= lim -> fits (lay a) bs ->
   (d a = true -> rest <> []) -> Rn f bs (g a) rest pos).

Lemma part_if : forall A B (f : F B) (g : A -> B) given lay d b, part f g given lay d ->
  part (f_if b f) (option_map g) (fun x => has b x /\ opt_all given x) (fun x => l_opt x lay)
       (fun x => match x with Some a => d a | None => false end).
Proof.
  intros A B f g given lay d b [Hs Hr]. split.
  - eapply Snd_conv; [apply Snd_if, Hs|]. intros [v|] bs rest.
    + intros (-> & a & -> & Hg & Hf & Hd). exists (Some a). cbn. repeat split; try assumption. discriminate.
    + intros (-> & ->). exists None. cbn. repeat split; [constructor|discriminate].
  - intros [a|] bs rest pos [Hh Hg] Hb Hl Hf Hd; apply Runs_if; destruct b; cbn in *; try congruence.
    + split; [reflexivity|]. now apply Hr.
    + split; [reflexivity|]. now apply fits_nil.
Qed.

Lemma part_given : forall A B (f : F B) (g : A -> B) given lay d given', part f g given lay d ->
  (forall a, given a <-> given' a) -> part f g given' lay d.
Proof.
  intros A B f g given lay d given' [Hs Hr] H. split.
  - eapply Snd_conv; [exact Hs|]. intros b bs rest (a & E & Hg & Hx). exists a. rewrite <- H. auto.
  - intros a bs rest pos Ha. rewrite <- H in Ha. now apply Hr.
Qed.

Lemma part_f64 : forall b, part (f_if b (f_uint pl 8)) (fun x => x) (field b (2 ^ 64))
  (fun x => just (w_if b (w64 o (val x)))) (fun _ => false).
Proof.
  intros b. split.
  - eapply Snd_conv; [apply Snd_f64|]. intros x bs rest [H ->]. exists x. repeat split; try assumption; [|discriminate].
    apply fits_refl.
  - intros x bs rest pos H _ _ Hf _. apply fits_just in Hf. subst bs. now apply Runs_f64.
Qed.

Lemma part_f32 : forall b, part (f_if b (f_uint pl 4)) (fun x => x) (field b (2 ^ 32))
  (fun x => just (w_if b (w32 o (val x)))) (fun _ => false).
Proof.
  intros b. split.
  - eapply Snd_conv; [apply Snd_f32|]. intros x bs rest [H ->]. exists x. repeat split; try assumption; [|discriminate].
    apply fits_refl.
  - intros x bs rest pos H _ _ Hf _. apply fits_just in Hf. subst bs. now apply Runs_f32.
Qed.

Lemma part_cpu : forall b, part (f_if b (a <~ f_uint pl 4 ;; _ <~ f_uint pl 4 ;; fret a)) (fun x => x)
  (field b (2 ^ 32)) (l_cpu o b) (fun _ => false).
Proof.
  intros b. split.
  - eapply Snd_conv; [apply Snd_cpu|]. intros x bs rest [H Hf]. exists x. repeat split; try assumption. discriminate.
  - intros x bs rest pos H _ _ Hf _. now apply Runs_cpu.
Qed.

(** Counts, and the arrays after them. *)
Lemma Snd_count : Sd (f_uint pl 8) (fun v bs _ => fits (count (as_usize pl v)) bs).
Proof. eapply Snd_conv; [apply Snd_u64|]. intros v bs rest [H ->]. now apply count_fits. Qed.

Lemma Runs_count : forall n bs rest pos, bytes bs -> n <= usize_max pl -> fits (count n) bs ->
  exists v, as_usize pl v = n /\ Rn (f_uint pl 8) bs v rest pos.
Proof.
  intros n bs rest pos Hb Hn Hf. destruct (count_of pl Hpl o n bs Hb Hn Hf) as (v & Hv & E & ->).
  exists v. split; [exact E|]. now apply Runs_u64.
Qed.

Lemma zero_arr : forall n, (arr n =? 0) = true <-> arr n = 0.
Proof. intros n. apply N.eqb_eq. Qed.

Lemma Snd_u64s : forall n, Sd (f_array pl fl_u64 n) (fun v bs rest => bs = w_list (w64 o) v /\ len v = n /\
  below (2 ^ 64) v /\ (arr n = 0 -> rest <> [])).
Proof. intros n. apply Snd_array; [reflexivity|]. apply dec_u64_inv. Qed.

Lemma Runs_words : forall l rest pos, below (2 ^ 64) l -> len (w_list (w64 o) l) <= lim ->
  (arr (len l) = 0 -> rest <> []) -> Rn (f_array pl fl_u64 (len l)) (w_list (w64 o) l) l rest pos.
Proof.
  intros l rest pos Hb Hl Hne. apply (Runs_array pl env lim Hlim); try assumption; [reflexivity|apply w64_len|].
  eapply Forall_impl; [|exact Hb]. intros v Hv. now apply dec_u64.
Qed.

Lemma part_callchain : part (f_callchain pl) (fun l => l) (below (2 ^ 64))
  (fun l => count (len l) ++ just (w_list (w64 o) l)) (fun l => arr (len l) =? 0).
Proof.
  split.
  - unfold f_callchain. eapply Snd_bind; [apply Snd_count|]. intros n b1. cbv beta.
    eapply Snd_conv; [apply Snd_u64s|]. intros l b2 rest (-> & Hl & Hb & Hne) Hc. exists l.
    split; [reflexivity|]. split; [exact Hb|]. rewrite zero_arr, Hl. split; [|exact Hne].
    apply fits_app_intro; [exact Hc|apply fits_refl].
  - intros l bs rest pos Hb B L Hf Hne. apply fits_app in Hf as (b1 & b2 & -> & H1 & H2). apply fits_just in H2. subst b2.
    apply Forall_app in B as [B1 _]. rewrite len_app in L. rewrite zero_arr in Hne.
    assert (Hn : len l <= usize_max pl) by (rewrite (w_list_len _ _ 8) in L by apply w64_len; lia).
    destruct (Runs_count (len l) b1 (w_list (w64 o) l ++ rest) pos B1 Hn H1) as (v & E & R).
    unfold f_callchain. eapply Runs_bind; [exact R|]. rewrite E. apply Runs_words; [exact Hb|lia|exact Hne].
Qed.

Lemma part_lbr : forall hw, part (f_lbr pl hw) (fun x => x)
  (fun x => Forall branch_ok (fst x) /\ field hw (2 ^ 64) (snd x))
  (fun x => count (len (fst x)) ++ just (w_if hw (w64 o (val (snd x))) ++ w_list (w_branch o) (fst x)))
  (fun x => arr (len (fst x)) =? 0).
Proof.
  intros hw. split.
  - unfold f_lbr. eapply Snd_bind; [apply Snd_count|]. intros n b1. cbv beta.
    eapply Snd_bind; [apply Snd_f64|]. intros h b2. cbv beta.
    eapply Snd_bind; [apply (Snd_array pl env lim branch_entry fl_branch (w_branch o) branch_ok); [reflexivity|apply dec_branch_inv]|].
    intros l b3. apply Snd_ret. intros rest (-> & Hl & Hb & Hne) (Hh & ->) Hc. exists (l, h). cbn [fst snd app] in *.
    split; [reflexivity|]. split; [now split|]. rewrite zero_arr, Hl. split; [|exact Hne].
    rewrite app_nil_r. apply fits_app_intro; [exact Hc|]. apply fits_refl.
  - intros [l h] bs rest pos [Hb Hh] B L Hf Hne. cbn [fst snd] in *.
    apply fits_app in Hf as (b1 & b2 & -> & H1 & H2). apply fits_just in H2. subst b2.
    apply Forall_app in B as [B1 _]. rewrite !len_app in L. rewrite zero_arr in Hne.
    assert (Hn : len l <= usize_max pl).
    { rewrite (w_list_len _ _ 24) in L by (intros; unfold w_branch; rewrite !len_app, !w64_len; reflexivity). lia. }
    edestruct (Runs_count (len l) b1) as (v & E & R); [exact B1|exact Hn|exact H1|].
    unfold f_lbr. eapply Runs_bind; [exact R|]. eapply Runs_bind; [now apply Runs_f64|]. cbv beta. rewrite E.
    eapply Runs_last; [|now apply Runs_ret].
    apply (Runs_array pl env lim Hlim); [reflexivity| | |lia|exact Hne].
    + intros x. unfold w_branch. rewrite !len_app, !w64_len. reflexivity.
    + eapply Forall_impl; [|exact Hb]. intros x Hx. now apply dec_branch.
Qed.

Lemma part_regs : forall mask, mask < 2 ^ 64 -> part (f_registers pl mask) (fun r => r) (regs_given mask)
  (l_regs o) (fun r => arr (len (rg_regs r)) =? 0).
Proof.
  intros mask Hm. split.
  - unfold f_registers. eapply Snd_bind; [apply Snd_u64|]. intros abi b1. cbv beta.
    eapply Snd_bind; [apply Snd_u64s|]. intros l b2. apply Snd_ret.
    intros rest (-> & Hl & Hb & Hne) (Ha & ->). cbn [app] in *. exists (mkRegs abi mask l).
    unfold regs_given, l_regs. cbn [rg_abi rg_mask rg_regs]. rewrite popcount_bits_set in * by exact Hm.
    split; [reflexivity|]. split; [auto|]. rewrite zero_arr, Hl. split; [|exact Hne].
    rewrite app_nil_r. apply fits_refl.
  - intros [abi mk l] bs rest pos (Ha & Hmk & Hl & Hb) B L Hf Hne. cbn [rg_abi rg_mask rg_regs] in *. subst mk.
    apply fits_just in Hf. cbn [rg_abi rg_regs] in Hf. subst bs. rewrite len_app in L. rewrite zero_arr in Hne.
    unfold f_registers. eapply Runs_bind; [now apply Runs_u64|]. cbv beta. rewrite popcount_bits_set, <- Hl by exact Hm.
    eapply Runs_last; [|now apply Runs_ret]. apply Runs_words; [exact Hb|lia|exact Hne].
Qed.

Lemma part_aux : part (f_sample_aux pl) (fun d => d) (fun _ => True) (fun d => count (len d) ++ just d)
  (fun d => len d =? 0).
Proof.
  split.
  - unfold f_sample_aux. eapply Snd_bind; [apply Snd_count|]. intros n b1. cbv beta.
    eapply Snd_conv; [apply Snd_take|]. intros d b2 rest (-> & Hl & Hne) Hc. exists b2. rewrite Hl.
    split; [reflexivity|]. split; [exact I|]. split; [apply fits_app_intro; [exact Hc|apply fits_refl]|].
    intros E. apply N.eqb_eq in E. rewrite E in Hl. apply len_0 in Hl. now subst b2.
  - intros d bs rest pos _ B L Hf Hne. apply fits_app in Hf as (b1 & b2 & -> & H1 & H2). apply fits_just in H2. subst b2.
    apply Forall_app in B as [B1 _]. rewrite len_app in L.
    edestruct (Runs_count (len d) b1) as (v & E & R); [exact B1|lia|exact H1|].
    unfold f_sample_aux. eapply Runs_bind; [exact R|]. rewrite E. apply Runs_take; [reflexivity|].
    destruct d as [|x t]; [|discriminate]. now apply Hne.
Qed.

Lemma part_stack : part (f_stack_user pl) fst (fun _ => True)
  (fun x => l_stack (pl_bits pl) o (fst x ++ snd x) (len (fst x))) (fun x => len (fst x ++ snd x) =? 0).
Proof.
  split.
  - unfold f_stack_user. eapply Snd_bind; [apply Snd_count|]. intros n b1. cbv beta.
    eapply Snd_bind; [apply Snd_take|]. intros d b2. cbv beta.
    apply (Snd_bind _ _ _ _ _ _ (fun k bs _ => if as_usize pl n =? 0 then k = 0 /\ bs = [] else fits (count k) bs)).
    + destruct (as_usize pl n =? 0).
      * apply Snd_ret. now intros.
      * eapply Snd_bind; [apply Snd_count|]. intros v b3. apply Snd_ret. intros rest H. now rewrite app_nil_r.
    + intros k b3. cbv beta. destruct (N.ltb_spec (len d) k) as [Hk|Hk]; [apply Snd_fail|].
      apply Snd_ret. intros rest H3 (-> & Hd & Hne) Hc. cbn [app] in Hne. exists (take k b2, drop k b2).
      cbn [fst snd]. rewrite take_drop, len_take. split; [reflexivity|]. split; [exact I|].
      replace (N.min k (len b2)) with k by lia. rewrite Hd. split.
      * unfold l_stack. rewrite Hd. apply fits_app_intro; [exact Hc|]. apply fits_app_intro; [apply fits_refl|].
        rewrite app_nil_r. destruct (as_usize pl n =? 0); cbn [negb l_if]; [|exact H3].
        destruct H3 as [_ ->]. constructor.
      * intros E. apply N.eqb_eq in E. rewrite E in *. cbn [N.eqb] in H3. destruct H3 as [_ ->].
        apply len_0 in Hd. now subst b2.
  - intros [d t] bs rest pos _ B L Hf Hne. cbn [fst snd] in *. unfold l_stack in Hf.
    apply fits_app in Hf as (b1 & b2 & -> & H1 & H2). apply fits_app in H2 as (b3 & b4 & -> & H2 & H3).
    apply fits_just in H2. subst b3. unfold bytes in B. rewrite !Forall_app in B. destruct B as (B1 & _ & B4). rewrite !len_app in L.
    edestruct (Runs_count (len (d ++ t)) b1) as (v & E & R); [exact B1|rewrite len_app; lia|exact H1|].
    unfold f_stack_user. eapply Runs_bind; [exact R|]. cbv beta. rewrite E.
    eapply Runs_bind; [apply Runs_take; [reflexivity|]|].
    + destruct (N.eqb_spec (len (d ++ t)) 0) as [E0|E0].
      * apply app_nonnil_r, app_nonnil_r. now apply Hne.
      * apply app_nonnil. intros E1. rewrite E1 in E0. now apply E0.
    + cbv beta. destruct (N.eqb_spec (len (d ++ t)) 0) as [E0|E0]; cbn [negb l_if] in H3.
      * apply fits_nil in H3. subst b4. eapply Runs_last; [now apply Runs_ret|]. cbv beta.
        apply len_0, app_eq_nil in E0 as [-> ->]. now apply Runs_ret.
      * edestruct (Runs_count (len d) b4) as (v2 & E2 & R2); [exact B4|lia|exact H3|].
        eapply Runs_last; [eapply Runs_last; [exact R2|now apply Runs_ret]|]. cbv beta. rewrite E2.
        replace (len (d ++ t) <? len d) with false by (symmetry; apply N.ltb_ge; rewrite len_app; lia).
        apply Runs_ret. now apply take_app_exact.
Qed.

Lemma part_raw : part (f_raw pl) (fun d => d) (fun d => len d < 2 ^ 32) (l_raw o) (fun _ => false).
Proof.
  split.
  - intros l pos d l' p' ev B L E. unfold f_raw, f_padded in E.
    assert (Hm : Sd (n <~ f_uint pl 4 ;; f_take (as_usize pl n))
                    (fun d bs rest => len d < 2 ^ 32 /\ bs = w32 o (len d) ++ d)).
    { eapply Snd_bind; [apply Snd_u32|]. intros n b1. cbv beta. eapply Snd_conv; [apply Snd_take|].
      intros d' b2 rest (-> & Hl & _) (Hn & ->).
      assert (En : as_usize pl n = n).
      { apply as_usize_small. unfold usize_max. assert (2 ^ 32 <= 2 ^ pl_bits pl) by (destruct Hpl as [-> | ->]; discriminate). lia. }
      rewrite En in Hl. rewrite Hl. auto. }
    unfold fbind at 1 in E.
    destruct ((n <~ f_uint pl 4 ;; f_take (as_usize pl n)) env l pos) as [x l1 p1 ev1|] eqn:E1; [|discriminate].
    destruct (Hm _ _ _ _ _ _ B L E1) as (b1 & -> & -> & Hx & ->). clear E1 Hm.
    rewrite len_app, w32_len in E.
    replace (pos + (4 + len x) - pos) with (4 + len x) in E by lia. rewrite <- pad8_eq in E.
    assert (Hs : Sd (_ <~ f_skip (pad8 (4 + len x)) ;; fret x) (fun v bs _ => v = x /\ len bs = pad8 (4 + len x))).
    { apply (Snd_bind _ _ _ _ _ _ (fun _ bs _ => len bs = pad8 (4 + len x))).
      - unfold f_skip. destruct (N.eqb_spec (pad8 (4 + len x)) 0) as [->|_].
        + apply Snd_ret. reflexivity.
        + eapply Snd_bind; [apply Snd_take|]. intros v b2. apply Snd_ret. intros rest (_ & H & _). now rewrite app_nil_r.
      - intros u b2. apply Snd_ret. intros rest H. now rewrite app_nil_r. }
    apply Forall_app in B as [B1 B2]. rewrite !len_app in L.
    destruct ((_ <~ f_skip (pad8 (4 + len x)) ;; fret x) env l1 (pos + (4 + len x))) as [y l2 p2 ev2|] eqn:E2; [|discriminate].
    injection E as -> -> -> _.
    destruct (Hs _ _ _ _ _ _ B2 ltac:(lia) E2) as (b2 & -> & -> & -> & Hp).
    exists ((w32 o (len x) ++ x) ++ b2). rewrite !app_assoc. split; [reflexivity|].
    split; [rewrite !len_app, w32_len; lia|]. exists x. split; [reflexivity|]. split; [exact Hx|]. split; [|discriminate].
    unfold l_raw. apply fits_app_intro; [apply fits_refl|]. now apply fits_any.
  - intros d bs rest pos Hd _ _ Hf _. unfold l_raw in Hf. apply fits_app in Hf as (b1 & b2 & -> & H1 & H2).
    apply fits_just in H1. apply fits_any in H2. subst b1. rewrite <- app_assoc.
    eapply (Rt_runs _ _ 0 true). now apply Rt_raw_pad.
Qed.

(** Values of counters. *)
Lemma Snd_num : forall b, Sd (f_if b (f_uint pl 8)) (fun x bs _ => num b (unwrap_or x 0) /\
  bs = w_if b (w64 o (unwrap_or x 0))).
Proof.
  intros b. eapply Snd_conv; [apply Snd_f64|]. intros [v|] bs rest [H ->]; cbn [field unwrap_or val] in *.
  - destruct H as [-> H]. now split.
  - subst b. now split.
Qed.

Lemma Runs_num : forall b v rest pos, num b v ->
  Rn (f_if b (f_uint pl 8)) (w_if b (w64 o v)) (if b then Some v else None) rest pos.
Proof. intros. eapply (Rt_runs _ _ 0 true). now apply Rt_num. Qed.

Lemma part_read_value : part (f_read_value pl) (fun v => v)
  (fun v => rbit w 3 = false /\ read_value_ok w v /\ ws_read_format w < 2 ^ 5)
  (fun v => just (w_read_value o w v)) (fun _ => false).
Proof.
  split.
  - unfold f_read_value. apply Snd_cfg. cbv zeta.
    unfold RF_GROUP, RF_TIME_ENABLED, RF_TIME_RUNNING, RF_ID, RF_LOST. rewrite !(cfg_rbit env w Hw).
    replace (read_format (fe_cfg env)) with (ws_read_format w) by (symmetry; apply Hw).
    destruct (rbit w 3); [apply Snd_fail|].
    destruct (N.eqb_spec (difference (ws_read_format w) RF_ALL) 0) as [Ek|]; cbn [negb]; [|apply Snd_fail].
    eapply Snd_bind; [apply Snd_u64|]. intros v b1. cbv beta.
    eapply Snd_bind; [apply Snd_num|]. intros te b2. cbv beta.
    eapply Snd_bind; [apply Snd_num|]. intros tr b3. cbv beta.
    eapply Snd_bind; [apply Snd_num|]. intros id b4. cbv beta.
    eapply Snd_bind; [apply Snd_num|]. intros lo b5. apply Snd_ret.
    intros rest (H5 & ->) (H4 & ->) (H3 & ->) (H2 & ->) (H1 & ->).
    eexists. split; [reflexivity|]. split; [|split; [|discriminate]].
    + split; [reflexivity|]. split; [|now apply known_only]. repeat split; assumption.
    + rewrite app_nil_r. apply fits_refl.
  - intros v bs rest pos (Hg & Hv & Hk) _ _ Hf _. apply fits_just in Hf. subst bs.
    eapply (Rt_runs _ _ 0 true). eapply Rt_read_value; eassumption.
Qed.

Lemma words_counters : forall n d, below (2 ^ 64) d -> len d = n * element_len (ws_read_format w) ->
  exists ks, len ks = n /\ Forall (counter_ok w) ks /\ d = concat (map (counter_words w) ks).
Proof.
  intros n. induction n as [|n IH] using N.peano_ind; intros d Hb Hl.
  - rewrite N.mul_0_l in Hl. apply len_0 in Hl. subst d. exists []. repeat split. constructor.
  - rewrite N.mul_succ_l in Hl. set (e := element_len (ws_read_format w)) in *.
    rewrite <- (take_drop e d) in Hb. apply Forall_app in Hb as [B1 B2].
    destruct (IH (drop e d) B2 ltac:(rewrite len_drop; lia)) as (ks & Hk & Hok & Ed).
    assert (Hx : exists k, counter_ok w k /\ take e d = counter_words w k).
    { assert (Hlt : len (take e d) = e) by (rewrite len_take; lia). revert B1 Hlt.
      generalize (take e d). intros x B1 Hlt. unfold e in Hlt. rewrite element_len_eq in Hlt.
      unfold counter_ok, counter_words, rbit, num.
      destruct (N.testbit (ws_read_format w) 2), (N.testbit (ws_read_format w) 4); cbn in Hlt.
      - destruct x as [|a [|b [|c [|]]]]; try discriminate Hlt; try (rewrite ?len_cons in Hlt; lia).
        inversion B1 as [|? ? H1 B']; subst. inversion B' as [|? ? H2 B'']; subst. inversion B'' as [|? ? H3 _]; subst.
        exists (mkCounter a b c). cbn. auto.
      - destruct x as [|a [|b [|]]]; try discriminate Hlt; try (rewrite ?len_cons in Hlt; lia).
        inversion B1 as [|? ? H1 B']; subst. inversion B' as [|? ? H2 B'']; subst.
        exists (mkCounter a b 0). cbn. auto.
      - destruct x as [|a [|b [|]]]; try discriminate Hlt; try (rewrite ?len_cons in Hlt; lia).
        inversion B1 as [|? ? H1 B']; subst. inversion B' as [|? ? H2 B'']; subst.
        exists (mkCounter a 0 b). cbn. auto.
      - destruct x as [|a [|]]; try discriminate Hlt; try (rewrite ?len_cons in Hlt; lia).
        inversion B1 as [|? ? H1 B']; subst.
        exists (mkCounter a 0 0). cbn. auto. }
    destruct Hx as (k & Hk1 & Ek). exists (k :: ks). rewrite len_cons, Hk. split; [lia|].
    split; [now constructor|]. cbn [map concat]. rewrite <- Ek, <- Ed. symmetry. apply take_drop.
Qed.

Lemma counters_enc : forall ks, w_list (w_counter o w) ks = w_list (w64 o) (concat (map (counter_words w) ks)).
Proof. intros ks. rewrite w_list_concat. apply w_list_ext. intros k. symmetry. apply counter_words_enc. Qed.

Lemma arr_mul : forall n k, 1 <= k -> (arr (n * k) = 0 <-> arr n = 0).
Proof. intros n k Hk. unfold in_host. destruct o, (pl_host pl); split; intros; nia. Qed.

Definition values_given (v : values) : Prop := values_ok w v /\ ws_read_format w < 2 ^ 5.

Lemma Snd_read_group : Sd (f_read_group pl) (fun g bs rest => exists te tr ks, g = group_of w (VGroup te tr ks) /\
  values_given (VGroup te tr ks) /\ fits (l_values (pl_bits pl) o w (VGroup te tr ks)) bs /\ (arr (len ks) = 0 -> rest <> [])).
Proof.
  unfold f_read_group. apply Snd_cfg. cbv zeta.
  unfold RF_GROUP, RF_TIME_ENABLED, RF_TIME_RUNNING. rewrite !(cfg_rbit env w Hw).
  replace (read_format (fe_cfg env)) with (ws_read_format w) by (symmetry; apply Hw).
  destruct (rbit w 3) eqn:Hg; cbn [negb]; [|apply Snd_fail].
  destruct (N.eqb_spec (difference (ws_read_format w) RF_ALL) 0) as [Ek|]; cbn [negb]; [|apply Snd_fail].
  eapply Snd_bind; [apply Snd_count|]. intros n b1. cbv beta.
  eapply Snd_bind; [apply Snd_num|]. intros te b2. cbv beta.
  eapply Snd_bind; [apply Snd_num|]. intros tr b3. cbv beta.
  destruct (usize_max pl <? as_usize pl n * element_len (ws_read_format w)); [apply Snd_fail|].
  eapply Snd_bind; [apply Snd_u64s|]. intros d b4. apply Snd_ret.
  intros rest (-> & Hl & Hb & Hne) (H3 & ->) (H2 & ->) Hc. cbn [app] in Hne.
  destruct (words_counters _ _ Hb Hl) as (ks & Hk & Hok & ->).
  exists (unwrap_or te 0), (unwrap_or tr 0), ks. split; [reflexivity|]. split; [|split].
  - split; [|now apply known_only]. cbn [values_ok]. auto.
  - cbn [l_values]. rewrite Hk, app_nil_r. apply fits_app_intro; [exact Hc|]. rewrite counters_enc. apply fits_refl.
  - intros H0. apply Hne. rewrite arr_mul by apply element_len_pos. now rewrite <- Hk.
Qed.

Lemma Runs_read_group : forall te tr ks bs rest pos, values_given (VGroup te tr ks) -> bytes bs -> len bs <= lim ->
  fits (l_values (pl_bits pl) o w (VGroup te tr ks)) bs -> (arr (len ks) = 0 -> rest <> []) ->
  Rn (f_read_group pl) bs (group_of w (VGroup te tr ks)) rest pos.
Proof.
  intros te tr ks bs rest pos [(Hg & Hte & Htr & Hks) Hk] B L Hf Hne. cbn [l_values] in Hf.
  apply fits_app in Hf as (b1 & b2 & -> & H1 & H2). apply fits_just in H2. subst b2.
  apply Forall_app in B as [B1 _]. rewrite !len_app in L.
  assert (El : len (w_list (w_counter o w) ks) = len ks * element_len (ws_read_format w) * 8).
  { rewrite counters_enc, (w_list_len _ _ 8) by apply w64_len. now rewrite group_words_len. }
  pose proof (element_len_pos (ws_read_format w)) as Hel.
  edestruct (Runs_count (len ks) b1) as (v & E & R); [exact B1|nia|exact H1|].
  unfold f_read_group. apply Runs_cfg. cbv zeta.
  unfold RF_GROUP, RF_TIME_ENABLED, RF_TIME_RUNNING. rewrite !(cfg_rbit env w Hw), Hg.
  replace (read_format (fe_cfg env)) with (ws_read_format w) by (symmetry; apply Hw).
  rewrite known_difference by exact Hk. cbn [N.eqb negb].
  eapply Runs_bind; [exact R|]. eapply Runs_bind; [now apply Runs_num|]. eapply Runs_bind; [now apply Runs_num|].
  cbv beta. rewrite E.
  replace (usize_max pl <? len ks * element_len (ws_read_format w)) with false
    by (symmetry; apply N.ltb_ge; nia).
  rewrite counters_enc in *. rewrite <- group_words_len. eapply Runs_last.
  - apply Runs_words; [now apply group_words_below|lia|]. rewrite group_words_len, arr_mul by apply Hel. exact Hne.
  - apply Runs_ret. cbn [group_of]. now rewrite !num_if by assumption.
Qed.

Lemma part_values : part (f_sample_read pl) (group_of w) values_given (l_values (pl_bits pl) o w)
  (fun v => arr (values_count v) =? 0).
Proof.
  assert (Hgrp : forall v, rv_format v = ws_read_format w -> f_group_of_value v = group_of w (VSingle v)).
  { intros v Hf. unfold f_group_of_value, group_of. rewrite Hf. f_equal.
    unfold rv_get_id, rv_get_lost, RF_ID, RF_LOST, then_some.
    rewrite Hf, !contains_pow2. fold (rbit w 2). fold (rbit w 4). unfold counter_words.
    cbn [ct_value ct_id ct_lost]. now destruct (rbit w 2), (rbit w 4). }
  split.
  - unfold f_sample_read. apply Snd_cfg. unfold RF_GROUP. rewrite (cfg_rbit env w Hw).
    destruct (rbit w 3) eqn:Hg.
    + eapply Snd_conv; [apply Snd_read_group|]. intros g bs rest (te & tr & ks & -> & Hv & Hf & Hne).
      exists (VGroup te tr ks). cbn [values_count]. rewrite zero_arr. auto.
    + eapply Snd_bind; [apply (proj1 part_read_value)|]. intros v b1. apply Snd_ret.
      intros rest (v' & -> & (Hg' & Hv & Hk) & Hf & _). exists (VSingle v'). split; [|split; [|split]].
      * apply Hgrp, Hv.
      * split; [|exact Hk]. now split.
      * now rewrite app_nil_r.
      * cbn [values_count]. rewrite zero_arr. unfold in_host. destruct o, (pl_host pl); discriminate.
  - intros [v|te tr ks] bs rest pos Hv B L Hf Hne; unfold f_sample_read; apply Runs_cfg; unfold RF_GROUP;
      rewrite (cfg_rbit env w Hw).
    + destruct Hv as [[Hg Hv] Hk]. rewrite Hg. eapply Runs_last; [apply (proj2 part_read_value v); auto; discriminate|].
      apply Runs_ret. apply Hgrp, Hv.
    + assert (Hg : rbit w 3 = true) by apply Hv. rewrite Hg. apply Runs_read_group; try assumption.
      cbn [values_count] in Hne. now rewrite zero_arr in Hne.
Qed.

(** The identifier, there twice. *)
Lemma id_given : forall b other x y, field b (2 ^ 64) x -> field other (2 ^ 64) y ->
  field (other || b) (2 ^ 64) (opt_or y x).
Proof. intros b other [x|] [y|]; cbn; intuition (subst; auto using orb_true_r). Qed.

Lemma Snd_twice : forall b other y, field other (2 ^ 64) y ->
  Sd (f_if b (f_uint pl 8)) (fun x bs _ => field b (2 ^ 64) x /\ fits (l_twice o b other (opt_or y x)) bs).
Proof.
  intros b other y Hy. eapply Snd_conv; [apply Snd_f64|]. intros x bs rest [Hx ->]. split; [exact Hx|].
  unfold l_twice. destruct b; cbn [w_if l_if]; [|constructor].
  destruct other, y as [y|]; cbn in Hy; try (destruct Hy; discriminate); try discriminate; cbn [opt_or].
  - apply fits_any. apply w64_len.
  - destruct x; apply fits_refl.
Qed.
End Parts.
