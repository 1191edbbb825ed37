(** Theorems about counter values and groups of them (C16, C17, C18, C19). *)
From Coq Require Import NArith List Bool Lia Permutation.
From Verif Require Import Base BaseFacts Types Platform Config Buf Parser Contract Flat Refine.
From Verif Require Import Instances Prims Slices Records Sample Record Attr Views RefRecords.
From Verif Require Import RefFrame RefTop Wire Codec ConfFacts Roundtrip RtSample RtRecord.
From Verif Require Import Bits Spec NoHint FrameFacts RoundFacts Read ReadFacts ExData.
Import ListNotations.
Open Scope N_scope.

Definition wanted (b : bool) (v : N) : option N := if b then Some v else None.

(** ** C17: access to the entries of a group.

    Any group consists of some counters ([C17_counters]); the following say what the
    accessors return in terms of them.  The bound on the length is that of any slice. *)
Definition fits (pl : platform) (g : read_group cow) : Prop :=
  len (cow_list (rg_data g)) <= usize_max pl.

Theorem C17_counters : forall g, exists ks, counters g ks.
Proof. exact counters_exist. Qed.

(** An entry has the value and, if they are recorded, the id and lost count. *)
Theorem C17_entry : forall rf k,
  let e := entry_for rf k in
  ge_value e = ct_value k /\ ge_get_id e = wanted (N.testbit rf 2) (ct_id k) /\
  ge_get_lost e = wanted (N.testbit rf 4) (ct_lost k).
Proof.
  intros rf k e. unfold e, ge_get_id, ge_get_lost, entry_for, then_some, RF_ID, RF_LOST, wanted.
  cbn [ge_format ge_value ge_id ge_lost]. rewrite !contains_pow2.
  destruct (N.testbit rf 2), (N.testbit rf 4); repeat split.
Qed.

Theorem C17_len : forall g ks, counters g ks ->
  group_len g = Ok (len ks) /\ group_is_empty g = Ok (len ks =? 0).
Proof.
  intros g ks H. assert (E : group_len g = Ok (len ks)).
  { unfold group_len. rewrite (iter_new_holds g ks H). cbn [obind]. f_equal. apply it_len_q. }
  split; [exact E|]. unfold group_is_empty. now rewrite E.
Qed.

Lemma get_drop : forall A n (l : list A), fst (q_next (drop n l)) = get n l.
Proof.
  intros A n l. revert n. induction l as [|x t IH]; intros n; [reflexivity|].
  cbn [drop get]. destruct (n =? 0); [reflexivity|]. apply IH.
Qed.

Theorem C17_get : forall pl g ks i, counters g ks -> fits pl g ->
  group_get pl g i = Ok (option_map (entry_for (rg_format g)) (nth_error ks (N.to_nat i))).
Proof.
  intros pl g ks i H Hf. unfold group_get. rewrite (iter_new_holds g ks H). cbn [obind].
  rewrite it_nth_q.
  - cbn [fst]. unfold q_nth. now rewrite get_drop, get_nth.
  - destruct H as (rem & E & _). unfold fits in Hf. rewrite E, len_app in Hf. lia.
Qed.

(** The first entry with the id, if ids are there at all. *)
Theorem C17_get_by_id : forall g ks id, counters g ks ->
  group_get_by_id g id = Ok (
    if N.testbit (rg_format g) 2
    then option_map (entry_for (rg_format g)) (find (fun k => ct_id k =? id) ks)
    else None).
Proof.
  intros g ks id H. unfold group_get_by_id, RF_ID. rewrite contains_pow2.
  destruct (N.testbit (rg_format g) 2) eqn:E2; [|reflexivity]. cbn [negb].
  rewrite (iter_new_holds g ks H). cbn [obind gi_v].
  rewrite it_find_q.
  - f_equal. clear H. induction ks as [|k t IH]; [reflexivity|]. cbn [map find].
    destruct (C17_entry (rg_format g) k) as (_ & -> & _). unfold wanted. rewrite E2.
    destruct (ct_id k =? id); [reflexivity|exact IH].
  - pose proof (flat_len (rg_format g) ks) as Hl. unfold len in Hl. pose proof (el_pos (rg_format g)).
    nia.
Qed.

(** ** C16: values decode to what was encoded. *)

(** A single value: 8 bytes for it and for every further thing asked for. *)
Theorem C16_value : forall pl S (PB : parsebuf S) mo fin cap mem w p value te tr id lost rest a,
  let o := order_of pl (c_endian (p_cfg p)) in
  configured (p_cfg p) w -> ws_read_format w < 2 ^ 5 -> rbit w 3 = false ->
  value < 2 ^ 64 -> te < 2 ^ 64 -> tr < 2 ^ 64 -> id < 2 ^ 64 -> lost < 2 ^ 64 ->
  let bs := enc o 8 value ++ (if rbit w 0 then enc o 8 te else []) ++
    (if rbit w 1 then enc o 8 tr else []) ++ (if rbit w 2 then enc o 8 id else []) ++
    (if rbit w 4 then enc o 8 lost else []) in
  source PB mo fin cap mem p (bs ++ rest) a ->
  exists v p', parse_read_value pl PB p = (Ok v, p') /\ rv_value v = value /\
    rv_get_enabled v = wanted (rbit w 0) te /\ rv_get_running v = wanted (rbit w 1) tr /\
    rv_get_id v = wanted (rbit w 2) id /\ rv_get_lost v = wanted (rbit w 4) lost /\
    after PB mo fin cap mem p (len bs) rest a p'.
Proof.
  intros pl S PB mo fin cap mem w p value te tr id lost rest a o Hcf Hk Hg Hv Hte Htr Hid Hlo bs Hs.
  set (v := mkReadValue (ws_read_format w) value (if rbit w 0 then te else 0) (if rbit w 1 then tr else 0)
    (if rbit w 2 then id else 0) (if rbit w 4 then lost else 0)).
  assert (Eb : w_read_value o w v = bs).
  { unfold w_read_value, bs, v, w_if, w64. cbn [rv_value rv_enabled rv_running rv_id rv_lost].
    destruct (rbit w 0), (rbit w 1), (rbit w 2), (rbit w 4); reflexivity. }
  assert (Hok : read_value_ok w v).
  { unfold read_value_ok, v, num. cbn [rv_format rv_value rv_enabled rv_running rv_id rv_lost].
    split; [reflexivity|]. split; [exact Hv|].
    destruct (rbit w 0), (rbit w 1), (rbit w 2), (rbit w 4); repeat split; (assumption || reflexivity). }
  rewrite <- Eb in Hs |- *.
  destruct (reads_evs PB mo fin cap mem _ _ eq (parse_read_value pl PB) (f_read_value pl) 0 true p
    (w_read_value o w v) v rest a) as (v' & p' & E & -> & Ha).
  - intros rep HC. eapply Ref_read_value; eassumption.
  - apply evs_read_value.
  - apply (Rt_read_value pl 0 true (mkEnv (p_cfg p) fin) w); assumption.
  - exact Hs.
  - exists v, p'. split; [exact E|]. split; [reflexivity|].
    unfold rv_get_enabled, rv_get_running, rv_get_id, rv_get_lost, then_some, v, wanted.
    cbn [rv_format rv_enabled rv_running rv_id rv_lost].
    unfold RF_TIME_ENABLED, RF_TIME_RUNNING, RF_ID, RF_LOST. rewrite !contains_pow2.
    fold (rbit w 0). fold (rbit w 1). fold (rbit w 2). fold (rbit w 4).
    destruct (rbit w 0), (rbit w 1), (rbit w 2), (rbit w 4); repeat (split; [reflexivity|]); exact Ha.
Qed.

(** A group.  Full statement: from any source and for any number of counters.  It
    does not hold for arrays lent misaligned ([C10_misaligned_refuted]) nor for a
    group of no counters at the very end in the byte order of the host
    ([C16_empty_refuted]). *)
Theorem C16_group_partial : forall pl S (PB : parsebuf S) mo fin cap mem w p te tr ks rest a,
  let o := order_of pl (c_endian (p_cfg p)) in
  pl_ok pl -> cap <= isize_max pl ->
  configured (p_cfg p) w -> ws_read_format w < 2 ^ 5 -> rbit w 3 = true ->
  te < 2 ^ 64 -> tr < 2 ^ 64 ->
  Forall (fun k => ct_value k < 2 ^ 64 /\ ct_id k < 2 ^ 64 /\ ct_lost k < 2 ^ 64) ks ->
  let bs := w_group o w te tr ks in
  len bs <= usize_max pl -> ks <> [] \/ rest <> [] \/ o <> pl_host pl ->
  lends_aligned pl mo a \/ o <> pl_host pl ->
  source PB mo fin cap mem p (bs ++ rest) a ->
  exists g p', parse_read_group pl PB p = (Ok g, p') /\
    rg_format g = ws_read_format w /\ counters g ks /\
    rg_get_enabled g = wanted (rbit w 0) te /\ rg_get_running g = wanted (rbit w 1) tr /\
    group_len g = Ok (len ks) /\
    (forall i, group_get pl g i = Ok (option_map (entry_for (ws_read_format w)) (nth_error ks (N.to_nat i)))) /\
    after PB mo fin cap mem p (len bs) rest a p'.
Proof.
  intros pl S PB mo fin cap mem w p te tr ks rest a o Hpl Hcap Hcf Hk Hg Hte Htr Hks bs Hlen Hne Hl Hs.
  set (te' := if rbit w 0 then te else 0). set (tr' := if rbit w 1 then tr else 0).
  set (ks' := map (fun k => mkCounter (ct_value k) (if rbit w 2 then ct_id k else 0)
    (if rbit w 4 then ct_lost k else 0)) ks).
  assert (Eb : w_group o w te' tr' ks' = bs).
  { assert (El : len ks' = len ks) by (unfold ks', len; now rewrite map_length).
    assert (E0 : w_if (rbit w 0) (w64 o te') = w_if (rbit w 0) (w64 o te)) by (unfold te'; now destruct (rbit w 0)).
    assert (E1 : w_if (rbit w 1) (w64 o tr') = w_if (rbit w 1) (w64 o tr)) by (unfold tr'; now destruct (rbit w 1)).
    unfold w_group, bs, w_group. rewrite El, E0, E1. do 3 apply f_equal.
    unfold ks', w_list. rewrite map_map. f_equal. apply map_ext. intros k. unfold w_counter.
    cbn [ct_value ct_id ct_lost]. now destruct (rbit w 2), (rbit w 4). }
  assert (Hok : Forall (counter_ok w) ks').
  { unfold ks'. rewrite Forall_map. eapply Forall_impl; [|exact Hks]. intros k (H1 & H2 & H3).
    unfold counter_ok, num. cbn [ct_value ct_id ct_lost].
    destruct (rbit w 2), (rbit w 4); repeat split; (assumption || reflexivity). }
  assert (HR : forall rep, contract PB mo fin cap mem rep ->
    Ref mo fin cap rep a (vrel view_read_group (ok_read_group mem pl)) (parse_read_group pl PB) (f_read_group pl))
    by (intros rep HC; eapply Ref_read_group; eassumption).
  assert (Hrt : forall a0, a0 mod 8 = 0 ->
    Rt a0 (poke_of mo) (mkEnv (p_cfg p) fin) (f_read_group pl) bs (group_of w (VGroup te' tr' ks')) rest 0).
  { intros a0 Ha0. rewrite <- Eb. apply Rt_read_group; try assumption.
    - unfold num, te'. destruct (rbit w 0); [exact Hte|reflexivity].
    - unfold num, tr'. destruct (rbit w 1); [exact Htr|reflexivity].
    - rewrite <- Eb in Hlen. exact Hlen.
    - intros Eh E. destruct Hne as [Hne|[Hne|Hne]]; [|exact Hne|contradiction]. unfold ks' in E. now apply map_eq_nil in E.
    - now rewrite N.add_0_r. }
  assert (Hread : exists g p', parse_read_group pl PB p = (Ok g, p') /\
    view_read_group g = group_of w (VGroup te' tr' ks') /\ after PB mo fin cap mem p (len bs) rest a p').
  { destruct Hl as [Hl|Hl].
    - destruct (reads_aligned pl PB mo fin cap mem _ _ _ _ _ p _ _ rest a HR (Hrt 0 eq_refl)
      (evs_read_group _ _ _ (fun B FE n => evs_array_own pl _ B FE n)) Hl Hs)
        as (g & p' & E & [Hv _] & Ha). exists g, p'. auto.
    - assert (Hev : evs (fun c => c_endian c = c_endian (p_cfg p)) (fun _ => False) (f_read_group pl)).
      { apply evs_read_group. intros B E n. apply evs_array_foreign. intros c ->. exact Hl. }
      destruct (reads_evs PB mo fin cap mem _ _ _ _ _ 0 (poke_of mo) p _ _ rest a HR Hev (Hrt 0 eq_refl) Hs)
        as (g & p' & E & [Hv _] & Ha). exists g, p'. auto. }
  destruct Hread as (g & p' & E & Hv & Ha). exists g, p'. split; [exact E|].
  unfold view_read_group, group_of in Hv. injection Hv as Ef Ee Er Ed.
  assert (Hcs : counters g ks).
  { exists []. rewrite app_nil_r. split; [|pose proof (el_pos (rg_format g)); rewrite len_nil; lia].
    rewrite Ed, Ef. unfold flat, ks'. rewrite map_map. f_equal. apply map_ext. intros k.
    unfold counter_words, words. cbn [ct_value ct_id ct_lost]. fold (rbit w 2). fold (rbit w 4).
    now destruct (rbit w 2), (rbit w 4). }
  split; [exact Ef|]. split; [exact Hcs|]. split.
  { unfold rg_get_enabled, then_some, RF_TIME_ENABLED, wanted. rewrite Ef, Ee, contains_pow2.
    fold (rbit w 0). unfold te'. now destruct (rbit w 0). }
  split.
  { unfold rg_get_running, then_some, RF_TIME_RUNNING, wanted. rewrite Ef, Er, contains_pow2.
    fold (rbit w 1). unfold tr'. now destruct (rbit w 1). }
  split; [now apply C17_len|]. split; [|exact Ha].
  intros i. rewrite <- Ef. apply C17_get; [exact Hcs|].
  unfold fits. destruct Hcs as (rem & Ecs & Hrem).
  assert (Hb : len bs = 8 + (if rbit w 0 then 8 else 0) + (if rbit w 1 then 8 else 0) +
    len (cow_list (rg_data g)) * 8).
  { rewrite <- Eb, Ed. unfold w_group.
    assert (Henc : w_list (w_counter o w) ks' = w_list (w64 o) (concat (map (counter_words w) ks'))).
    { rewrite w_list_concat. apply w_list_ext. intros k. symmetry. apply (counter_words_enc pl (mkEnv (p_cfg p) fin)). }
    rewrite Henc, !len_app, !w_if_len, !w64_len, (w_list_len _ _ 8) by apply w64_len. lia. }
  destruct (rbit w 0), (rbit w 1); lia.
Qed.

(** A group of no counters at the end of a record, in the host's byte order. *)
Theorem C16_empty_refuted : exists pl S (PB : parsebuf S) mo mem w p,
  let o := order_of pl (c_endian (p_cfg p)) in
  pl_ok pl /\ configured (p_cfg p) w /\ ws_read_format w = 8 /\ lends_aligned pl mo 4096 /\
  source PB mo eof_error (isize_max pl) mem p (w_group o w 0 0 []) 4096 /\
  fst (parse_read_group pl PB p) = Err eof_error.
Proof.
  set (w := mkSettings 0 8 false false 0 0). set (c := mkConfig (cf_new 8 0 false false 0) 0 0 Little).
  set (d := w_group LE w 0 0 []).
  exists pl64, slice, slice_buf, Whole, (memory_of 4096 d), w, (on_slice 4096 d c).
  split; [now right|]. split; [vm_compute; repeat split; reflexivity|]. split; [reflexivity|].
  split; [reflexivity|]. split; [|vm_compute; reflexivity].
  apply slice_source; [| | |apply memory_of_at]; try (vm_compute; congruence). repeat constructor.
Qed.

(** Two counters with ids and lost counts, read in the other byte order. *)
Example C16_example :
  let w := mkSettings 0 0x1d false false 0 0 in
  let c := mkConfig (cf_new 0x1d 0 false false 0) 0 0 Big in
  let d := w_group BE w 77 0 [mkCounter 1 2 3; mkCounter 4 5 6] in
  configured c w /\ rbit w 3 = true /\
  exists g, fst (parse_read_group pl64 slice_buf (on_slice 4096 d c)) = Ok g /\
    rg_get_enabled g = Some 77 /\ rg_get_running g = None /\ group_len g = Ok 2 /\
    group_get pl64 g 1 = Ok (Some (mkEntry 0x1d 4 5 6)) /\ group_get pl64 g 2 = Ok None /\
    group_get_by_id g 5 = Ok (Some (mkEntry 0x1d 4 5 6)).
Proof.
  split; [vm_compute; repeat split; reflexivity|]. split; [reflexivity|].
  eexists. split; [vm_compute; reflexivity|]. vm_compute. repeat split; reflexivity.
Qed.

(** Groups as they are in memory: with ids, without, and with words left over. *)
Example C17_example :
  let g rf d := mkReadGroup rf 0 0 (Owned d) in
  counters (g 12 [10; 1; 11; 2; 12]) [mkCounter 10 1 0; mkCounter 11 2 0] /\
  group_get_by_id (g 12 [10; 1; 11; 2; 12]) 2 = Ok (Some (mkEntry 12 11 2 0)) /\
  group_get_by_id (g 12 [10; 1; 11; 2; 12]) 12 = Ok None /\
  group_get_by_id (g 8 [10; 1; 11]) 1 = Ok None /\ group_len (g 8 [10; 1; 11]) = Ok 3 /\
  group_get pl64 (g 8 [10; 1; 11]) (2 ^ 64 - 1) = Ok None.
Proof. split; [exists [12]; split; reflexivity|]. vm_compute. repeat split; reflexivity. Qed.

(** ** C18: conversions. *)

(** What a user can see of a [ReadValue]. *)
Definition same_value (v1 v2 : read_value) : Prop :=
  rv_value v1 = rv_value v2 /\ rv_get_enabled v1 = rv_get_enabled v2 /\
  rv_get_running v1 = rv_get_running v2 /\ rv_get_id v1 = rv_get_id v2 /\
  rv_get_lost v1 = rv_get_lost v2.

Lemma lor8_bit : forall x i, i <> 3 -> N.testbit (N.lor x RF_GROUP) i = N.testbit x i.
Proof.
  intros x i H. unfold RF_GROUP. rewrite N.lor_spec, N.pow2_bits_eqb.
  replace (3 =? i) with false by (symmetry; apply N.eqb_neq; congruence). apply orb_false_r.
Qed.

Lemma diff8_bit : forall x i, i <> 3 -> N.testbit (difference x RF_GROUP) i = N.testbit x i.
Proof.
  intros x i H. unfold RF_GROUP, difference. rewrite N.ldiff_spec, N.pow2_bits_eqb.
  replace (3 =? i) with false by (symmetry; apply N.eqb_neq; congruence). apply andb_true_r.
Qed.

Definition counter_of (v : read_value) : counter := mkCounter (rv_value v) (rv_id v) (rv_lost v).

(** The group made of a value has it as its only counter. *)
Theorem C18_to_group : forall v,
  let g := group_of_value v in
  counters g [counter_of v] /\ group_len g = Ok 1 /\
  rg_get_enabled g = rv_get_enabled v /\ rg_get_running g = rv_get_running v /\
  forall pl, pl_ok pl -> exists e, group_get pl g 0 = Ok (Some e) /\
    ge_value e = rv_value v /\ ge_get_id e = rv_get_id v /\ ge_get_lost e = rv_get_lost v.
Proof.
  intros v g.
  assert (H : counters g [counter_of v]).
  { exists []. rewrite app_nil_r, flat_one. split; [|pose proof (el_pos (rg_format g)); rewrite len_nil; lia].
    unfold g, group_of_value. cbn [rg_data rg_format cow_list].
    unfold words, counter_of. cbn [ct_value ct_id ct_lost]. rewrite !lor8_bit by discriminate.
    unfold rv_get_id, rv_get_lost, then_some, RF_ID, RF_LOST. rewrite !contains_pow2.
    now destruct (N.testbit (rv_format v) 2), (N.testbit (rv_format v) 4). }
  split; [exact H|]. split; [exact (proj1 (C17_len g _ H))|].
  assert (Ht : forall i, i <> 3 -> contains (rg_format g) (2 ^ i) = contains (rv_format v) (2 ^ i)).
  { intros i Hi. rewrite !contains_pow2. unfold g, group_of_value. cbn [rg_format]. now apply lor8_bit. }
  split; [unfold rg_get_enabled, RF_TIME_ENABLED; rewrite Ht by discriminate; reflexivity|].
  split; [unfold rg_get_running, RF_TIME_RUNNING; rewrite Ht by discriminate; reflexivity|].
  intros pl Hpl. exists (entry_for (rg_format g) (counter_of v)). split.
  { rewrite (C17_get pl g _ 0 H); [reflexivity|].
    unfold fits, g, group_of_value. cbn [rg_data cow_list]. rewrite !len_app.
    assert (Ho : forall x : option N, len (opt_list x) <= 1) by (intros [x|]; discriminate).
    pose proof (Ho (rv_get_id v)). pose proof (Ho (rv_get_lost v)). change (len [rv_value v]) with 1.
    assert (Hu : 4 <= usize_max pl) by (unfold usize_max; destruct Hpl as [-> | ->]; discriminate). lia. }
  destruct (C17_entry (rg_format g) (counter_of v)) as (E1 & E2 & E3).
  split; [exact E1|]. rewrite E2, E3. unfold rv_get_id, rv_get_lost, then_some, RF_ID, RF_LOST.
  rewrite <- (Ht 2), <- (Ht 4), !contains_pow2 by discriminate. split; reflexivity.
Qed.

(** A group is a single value exactly if it has one counter. *)
Theorem C18_of_group : forall g ks, counters g ks ->
  exists r, value_of_group g = Ok r /\
  (len ks = 1 <-> r <> None) /\
  forall v, r = Some v ->
    exists k, ks = [k] /\ rv_value v = ct_value k /\
      rv_get_enabled v = rg_get_enabled g /\ rv_get_running v = rg_get_running g /\
      rv_get_id v = wanted (N.testbit (rg_format g) 2) (ct_id k) /\
      rv_get_lost v = wanted (N.testbit (rg_format g) 4) (ct_lost k).
Proof.
  intros g ks H. unfold value_of_group. rewrite (iter_new_holds g ks H). cbn [obind].
  rewrite it_next_q. destruct ks as [|k [|k2 t]]; cbn [q_next fst snd option_map obind].
  - exists None. split; [reflexivity|]. split; [split; [discriminate|congruence]|]. discriminate.
  - rewrite it_next_q. cbn [q_next fst snd option_map obind].
    exists (Some (value_of_entry g (entry_for (rg_format g) k))).
    split; [reflexivity|]. split; [split; [discriminate|reflexivity]|].
    intros v Ev. injection Ev as <-. exists k. split; [reflexivity|].
    unfold value_of_entry, entry_for, rv_get_enabled, rg_get_enabled, rv_get_running, rg_get_running,
      rv_get_id, rv_get_lost, then_some, wanted, RF_TIME_ENABLED, RF_TIME_RUNNING, RF_ID, RF_LOST.
    cbn [rv_format rv_value rv_enabled rv_running rv_id rv_lost ge_value ge_id ge_lost].
    rewrite !contains_pow2, !diff8_bit by discriminate.
    destruct (N.testbit (rg_format g) 2), (N.testbit (rg_format g) 4); repeat split.
  - rewrite it_next_q. cbn [q_next fst snd option_map obind].
    exists None. split; [reflexivity|]. split; [|discriminate].
    split; [|congruence]. intros E. rewrite !len_cons in E. lia.
Qed.

(** There and back again.  Values the crate makes have no GROUP bit, and parsed ones
    have 0 for whatever is not recorded: these come back the same in every field. *)
Theorem C18_round_trip : forall v,
  exists v', value_of_group (group_of_value v) = Ok (Some v') /\ same_value v' v /\
    (N.testbit (rv_format v) 3 = false ->
     (N.testbit (rv_format v) 2 = false -> rv_id v = 0) ->
     (N.testbit (rv_format v) 4 = false -> rv_lost v = 0) -> v' = v).
Proof.
  intros v. destruct (C18_to_group v) as (H & _ & Ete & Etr & _).
  destruct (C18_of_group _ _ H) as (r & Er & [Hr _] & Hv).
  destruct r as [v'|]; [|exfalso; now apply Hr].
  exists v'. split; [exact Er|].
  destruct (Hv v' eq_refl) as (k & Ek & E1 & E2 & E3 & E4 & E5). injection Ek as <-.
  change (rg_format (group_of_value v)) with (N.lor (rv_format v) RF_GROUP) in E4, E5.
  rewrite lor8_bit in E4, E5 by discriminate.
  assert (Ei : rv_get_id v = wanted (N.testbit (rv_format v) 2) (rv_id v)).
  { unfold rv_get_id, then_some, RF_ID, wanted. now rewrite contains_pow2. }
  assert (El : rv_get_lost v = wanted (N.testbit (rv_format v) 4) (rv_lost v)).
  { unfold rv_get_lost, then_some, RF_LOST, wanted. now rewrite contains_pow2. }
  split.
  { split; [exact E1|]. split; [congruence|]. split; [congruence|].
    split; [rewrite E4, Ei; reflexivity|rewrite E5, El; reflexivity]. }
  intros G3 G2 G4. clear E1 E2 E3 E4 E5.
  unfold value_of_group in Er. rewrite (iter_new_holds _ _ H) in Er. cbn [obind] in Er.
  rewrite it_next_q in Er. cbn [q_next fst snd option_map obind] in Er.
  rewrite it_next_q in Er. cbn [q_next fst snd option_map obind] in Er. injection Er as <-.
  destruct v as [rf value te tr id lo]. unfold value_of_entry, entry_for, group_of_value, counter_of.
  cbn [rg_format rg_enabled rg_running rv_format rv_value rv_enabled rv_running rv_id rv_lost ge_value
       ge_id ge_lost ct_value ct_id ct_lost] in *.
  rewrite !lor8_bit by discriminate. f_equal.
  - apply bits_eq; intros i. destruct (N.eq_dec i 3) as [->|Hi].
    + rewrite G3. unfold difference, RF_GROUP. rewrite N.ldiff_spec, N.pow2_bits_eqb. apply andb_false_r.
    + now rewrite diff8_bit, lor8_bit by exact Hi.
  - destruct (N.testbit rf 2); [reflexivity|]. symmetry. now apply G2.
  - destruct (N.testbit rf 4); [reflexivity|]. symmetry. now apply G4.
Qed.

(** Parsed values are of that sort. *)
Theorem C18_parsed : forall pl S (PB : parsebuf S) p v p',
  parse_read_value pl PB p = (Ok v, p') ->
  value_of_group (group_of_value v) = Ok (Some v).
Proof.
  intros pl S PB p v p' E.
  destruct (C18_round_trip v) as (v' & Ev & _ & H). rewrite Ev. do 2 f_equal. apply H; clear H Ev.
  all: revert E; unfold parse_read_value, bind, get_cfg; cbv zeta;
    destruct (contains (read_format (p_cfg p)) RF_GROUP) eqn:Eg; [discriminate|];
    destruct (negb _); [discriminate|];
    destruct (parse_u64 pl PB p) as [[x0| | |] p0]; try discriminate;
    destruct (parse_if (contains (read_format (p_cfg p)) RF_TIME_ENABLED) (parse_u64 pl PB) p0) as [[x1| | |] p1]; try discriminate;
    destruct (parse_if (contains (read_format (p_cfg p)) RF_TIME_RUNNING) (parse_u64 pl PB) p1) as [[x2| | |] p2]; try discriminate;
    destruct (parse_if (contains (read_format (p_cfg p)) RF_ID) (parse_u64 pl PB) p2) as [[x3| | |] p3] eqn:E3; try discriminate;
    destruct (parse_if (contains (read_format (p_cfg p)) RF_LOST) (parse_u64 pl PB) p3) as [[x4| | |] p4] eqn:E4; try discriminate;
    unfold ret; intros E; injection E as <- _; cbn [rv_format rv_id rv_lost].
  - unfold RF_GROUP in Eg. now rewrite contains_pow2 in Eg.
  - intros Hb. unfold RF_ID in E3. rewrite contains_pow2, Hb in E3. unfold parse_if, ret in E3.
    now injection E3 as <- _.
  - intros Hb. unfold RF_LOST in E4. rewrite contains_pow2, Hb in E4. unfold parse_if, ret in E4.
    now injection E4 as <- _.
Qed.

(** An entry of a group as a value of its own. *)
Theorem C18_entry : forall g ks i e pl, counters g ks -> fits pl g ->
  group_get pl g i = Ok (Some e) ->
  let v := value_of_entry g e in
  rv_value v = ge_value e /\ rv_get_id v = ge_get_id e /\ rv_get_lost v = ge_get_lost e /\
  rv_get_enabled v = rg_get_enabled g /\ rv_get_running v = rg_get_running g /\
  N.testbit (rv_format v) 3 = false.
Proof.
  intros g ks i e pl H Hf E v. rewrite (C17_get pl g ks i H Hf) in E.
  destruct (nth_error ks (N.to_nat i)) as [k|]; [|discriminate]. cbn [option_map] in E. injection E as <-.
  unfold v, value_of_entry, entry_for, rv_get_enabled, rg_get_enabled, rv_get_running, rg_get_running,
    rv_get_id, rv_get_lost, ge_get_id, ge_get_lost, then_some, RF_TIME_ENABLED, RF_TIME_RUNNING, RF_ID, RF_LOST.
  cbn [rv_format rv_value rv_enabled rv_running rv_id rv_lost ge_format ge_value ge_id ge_lost].
  rewrite !contains_pow2, !diff8_bit by discriminate.
  repeat (split; [reflexivity|]). unfold difference, RF_GROUP.
  rewrite N.ldiff_spec, N.pow2_bits_eqb. apply andb_false_r.
Qed.

Example C18_example :
  let v := mkReadValue 0x15 9 100 0 7 2 in
  let g := group_of_value v in
  g = mkReadGroup 0x1d 100 0 (Owned [9; 7; 2]) /\ value_of_group g = Ok (Some v) /\
  value_of_group (mkReadGroup 8 0 0 (Owned [1; 2])) = Ok None /\
  value_of_group (mkReadGroup 8 0 0 (Owned [])) = Ok None /\
  value_of_entry (mkReadGroup 12 0 0 (Owned [1; 2; 3; 4])) (mkEntry 12 3 4 0) = mkReadValue 4 3 0 0 4 0.
Proof. vm_compute. repeat split; reflexivity. Qed.

(** ** C19: the iterator is a double-ended queue. *)

Inductive op : Type := Next | Nth (n : N) | NextBack | NthBack (n : N) | Len | Count | Last.

Inductive answer (E : Type) : Type := Item (e : option E) | Number (n : N).
Arguments Item {E} _. Arguments Number {E} _.

(** The iterator of the crate; [count] and [last] on a clone, as they consume it. *)
Definition iter_do (pl : platform) (o : op) (it : group_iter) : out (answer group_entry) * group_iter :=
  let item r := (obind (fst r) (fun e => Ok (Item e)), snd r) in
  match o with
  | Next => item (it_next it)
  | Nth n => item (it_nth pl it n)
  | NextBack => item (it_next_back it)
  | NthBack n => item (it_nth_back it n)
  | Len | Count => (Ok (Number (it_len it)), it)
  | Last => (obind (it_last it) (fun e => Ok (Item e)), it)
  end.

Fixpoint iter_run (pl : platform) (os : list op) (it : group_iter) : list (out (answer group_entry)) :=
  match os with
  | [] => []
  | o :: os => let (r, it') := iter_do pl o it in r :: iter_run pl os it'
  end.

(** The same on a list: skip from one end, take from it. *)
Definition list_do {E : Type} (o : op) (l : list E) : answer E * list E :=
  match o with
  | Next => (Item (hd_error l), tl l)
  | Nth n => let l' := skipn (N.to_nat n) l in (Item (hd_error l'), tl l')
  | NextBack => let r := rev l in (Item (hd_error r), rev (tl r))
  | NthBack n => let r := skipn (N.to_nat n) (rev l) in (Item (hd_error r), rev (tl r))
  | Len | Count => (Number (N.of_nat (length l)), l)
  | Last => (Item (hd_error (rev l)), l)
  end.

Fixpoint list_run {E : Type} (os : list op) (l : list E) : list (answer E) :=
  match os with
  | [] => []
  | o :: os => let (r, l') := list_do o l in r :: list_run os l'
  end.

Definition over {A B : Type} (f : A -> B) (r : answer A) : answer B :=
  match r with Item e => Item (option_map f e) | Number n => Number n end.

Lemma iter_do_list : forall pl rf o ks, len (flat rf ks) <= usize_max pl ->
  iter_do pl o (mkIter (flat rf ks) (element_len rf) rf) =
  let (r, l) := list_do o ks in
  (Ok (over (entry_for rf) r), mkIter (flat rf l) (element_len rf) rf).
Proof.
  intros pl rf o ks Hf. destruct o as [|n| |n| | |]; cbn [iter_do list_do].
  - rewrite it_next_q. destruct ks; reflexivity.
  - rewrite it_nth_q by exact Hf. unfold q_nth. rewrite drop_skipn. destruct (skipn _ ks); reflexivity.
  - rewrite it_next_back_q. unfold q_next_back. destruct (rev ks); reflexivity.
  - rewrite it_nth_back_q. unfold q_nth_back, q_next_back.
    replace (rev (take (len ks - n) ks)) with (skipn (N.to_nat n) (rev ks)).
    + destruct (skipn _ (rev ks)); reflexivity.
    + rewrite skipn_rev, take_firstn. f_equal. f_equal. unfold len. lia.
  - now rewrite it_len_q.
  - now rewrite it_len_q.
  - rewrite it_last_q. cbn [fst]. unfold q_next_back. destruct (rev ks); reflexivity.
Qed.

Lemma list_do_shorter : forall A o (l : list A), (length (snd (list_do o l)) <= length l)%nat.
Proof.
  intros A o l. assert (Ht : forall l : list A, (length (tl l) <= length l)%nat) by (intros []; cbn; lia).
  destruct o; cbn [list_do snd]; try lia.
  - apply Ht.
  - etransitivity; [apply Ht|]. rewrite skipn_length. lia.
  - rewrite rev_length. etransitivity; [apply Ht|]. now rewrite rev_length.
  - rewrite rev_length. etransitivity; [apply Ht|]. rewrite skipn_length, rev_length. lia.
Qed.

(** Any sequence of calls gives what it gives on the list of entries. *)
Theorem C19_deque : forall pl g ks os, counters g ks -> fits pl g ->
  exists it, iter_new g = Ok it /\
    iter_run pl os it = map (fun r => Ok (over (entry_for (rg_format g)) r)) (list_run os ks).
Proof.
  intros pl g ks os H Hf. eexists. split; [exact (iter_new_holds g ks H)|].
  assert (Hl : len (flat (rg_format g) ks) <= usize_max pl).
  { destruct H as (rem & E & _). unfold fits in Hf. rewrite E, len_app in Hf. lia. }
  clear H Hf. revert Hl. generalize (rg_format g). intros rf. revert ks.
  induction os as [|o os IH]; intros ks Hl; [reflexivity|]. cbn [iter_run list_run].
  rewrite iter_do_list by exact Hl.
  pose proof (list_do_shorter _ o ks) as Hs. destruct (list_do o ks) as [r l]. cbn [snd] in Hs.
  cbn [map]. f_equal. apply IH. rewrite flat_len in *. unfold len in *. nia.
Qed.

(** Nothing is yielded twice: what is yielded and what is not make up the group. *)
Definition items {E : Type} (rs : list (answer E)) : list E :=
  flat_map (fun r => match r with Item (Some e) => [e] | _ => [] end) rs.

Definition taking (o : op) : Prop := o <> Last.

Lemma list_do_perm : forall E o (l : list E), taking o ->
  exists skipped, Permutation (items [fst (list_do o l)] ++ skipped ++ snd (list_do o l)) l /\
    (o = Next \/ o = NextBack -> skipped = []).
Proof.
  intros E o l Ho.
  assert (Hhd : forall l : list E, items [Item (hd_error l)] ++ tl l = l) by (intros []; reflexivity).
  destruct o as [|n| |n| | |]; cbn [list_do fst snd].
  - exists []. split; [|reflexivity]. cbn [app]. now rewrite Hhd.
  - exists (firstn (N.to_nat n) l). split; [|intros [H|H]; discriminate].
    etransitivity; [apply Permutation_app_swap_app|]. rewrite Hhd, firstn_skipn. reflexivity.
  - exists []. split; [|reflexivity]. cbn [app]. etransitivity; [|symmetry; apply Permutation_rev].
    rewrite <- (Hhd (rev l)) at 3. apply Permutation_app_head. symmetry. apply Permutation_rev.
  - exists (firstn (N.to_nat n) (rev l)). split; [|intros [H|H]; discriminate].
    etransitivity; [|symmetry; apply Permutation_rev].
    rewrite <- (firstn_skipn (N.to_nat n) (rev l)) at 4.
    etransitivity; [apply Permutation_app_swap_app|]. apply Permutation_app_head.
    rewrite <- (Hhd (skipn (N.to_nat n) (rev l))) at 3. apply Permutation_app_head. symmetry.
    apply Permutation_rev.
  - exists []. split; reflexivity.
  - exists []. split; reflexivity.
  - now contradiction Ho.
Qed.

Theorem C19_no_repeats : forall E os (l : list E), Forall taking os ->
  exists others, Permutation (items (list_run os l) ++ others) l.
Proof.
  intros E os. induction os as [|o os IH]; intros l H; [exists l; reflexivity|].
  inversion H as [|o' os' Ho Hos]; subst. cbn [list_run].
  destruct (list_do_perm E o l Ho) as (sk & Hp & _). destruct (list_do o l) as [r l'].
  cbn [fst snd] in Hp. destruct (IH l' Hos) as (ot & Hot). exists (sk ++ ot).
  etransitivity; [|exact Hp]. change (items (r :: list_run os l')) with (items ([r] ++ list_run os l')).
  unfold items in *. rewrite flat_map_app, <- app_assoc. apply Permutation_app_head.
  etransitivity; [apply Permutation_app_swap_app|]. apply Permutation_app_head. exact Hot.
Qed.

(** Nothing is left out: one at a time from either end, in any order, as often as there
    are entries, yields each of them. *)
Theorem C19_each_once : forall E os (l : list E),
  Forall (fun o => o = Next \/ o = NextBack) os -> length os = length l ->
  Permutation (items (list_run os l)) l.
Proof.
  intros E os. induction os as [|o os IH]; intros l H Hl; [destruct l; [reflexivity|discriminate]|].
  inversion H as [|o' os' Ho Hos]; subst. cbn [list_run].
  assert (Hs : length os = length (snd (list_do o l)) ).
  { destruct Ho as [-> | ->]; cbn [list_do snd].
    - destruct l; [discriminate|]. cbn in *. lia.
    - rewrite rev_length. pose proof (rev_length l) as Hr. destruct (rev l); cbn in *; lia. }
  destruct (list_do_perm E o l) as (sk & Hp & Hsk); [destruct Ho as [-> | ->]; discriminate|].
  rewrite (Hsk Ho) in Hp. destruct (list_do o l) as [r l']. cbn [fst snd app] in *.
  etransitivity; [|exact Hp]. change (items (r :: list_run os l')) with (items ([r] ++ list_run os l')).
  unfold items in *. rewrite flat_map_app. apply Permutation_app_head. now apply IH.
Qed.

Example C19_example :
  let g := mkReadGroup 12 0 0 (Owned [10; 1; 11; 2; 12; 3; 13; 4; 14; 5]) in
  let ks := [mkCounter 10 1 0; mkCounter 11 2 0; mkCounter 12 3 0; mkCounter 13 4 0; mkCounter 14 5 0] in
  counters g ks /\
  list_run [Next; NthBack 1; Len; Last; Nth 1; NextBack; Count] ks =
    [Item (Some (mkCounter 10 1 0)); Item (Some (mkCounter 13 4 0)); Number 2;
     Item (Some (mkCounter 12 3 0)); Item (Some (mkCounter 12 3 0)); Item None; Number 0].
Proof. split; [exists []; split; reflexivity|vm_compute; reflexivity]. Qed.

Print Assumptions C17_counters.
Print Assumptions C17_entry.
Print Assumptions C17_len.
Print Assumptions C17_get.
Print Assumptions C17_get_by_id.
Print Assumptions C16_value.
Print Assumptions C16_group_partial.
Print Assumptions C16_empty_refuted.
Print Assumptions C18_to_group.
Print Assumptions C18_of_group.
Print Assumptions C18_round_trip.
Print Assumptions C18_parsed.
Print Assumptions C18_entry.
Print Assumptions C19_deque.
Print Assumptions C19_no_repeats.
Print Assumptions C19_each_once.
