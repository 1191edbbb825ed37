(** [f_sample] undoes [w_sample]. *)
From Coq Require Import NArith List Bool Lia.
From Verif Require Import Base BaseFacts Types Platform Config Bits ConfFacts Records Sample
  Record Flat Wire Codec Roundtrip.
Import ListNotations.
Open Scope N_scope.

Section Lengths.
Context (o : order) (w : settings).

Lemma m8_64 : forall b v, len (w_if b (w64 o v)) mod 8 = 0.
Proof. intros [] v; cbn [w_if]; rewrite ?w64_len; reflexivity. Qed.

Lemma m8_32 : forall b u v, len (w_if b (w32 o u ++ w32 o v)) mod 8 = 0.
Proof. intros [] u v; cbn [w_if]; rewrite ?len_app, ?w32_len; reflexivity. Qed.

Lemma m8_opt : forall A b (x : option A) f, (forall v, x = Some v -> len (f v) mod 8 = 0) ->
  len (w_opt b x f) mod 8 = 0.
Proof. intros A b [v|] f H; [destruct b; [now apply H|reflexivity]|reflexivity]. Qed.

Lemma m8_mul : forall n, (n * 8) mod 8 = 0.
Proof. intros n. now apply N.mod_mul. Qed.

Lemma m8_add : forall a b, a mod 8 = 0 -> b mod 8 = 0 -> (a + b) mod 8 = 0.
Proof. intros a b Ha Hb. rewrite N.add_mod, Ha, Hb by discriminate. reflexivity. Qed.

Lemma m8_u64s : forall l, len (w_list (w64 o) l) mod 8 = 0.
Proof. intros l. rewrite (w_list_len _ _ 8) by apply w64_len. apply m8_mul. Qed.

Lemma m8_values : forall v, len (w_values o w v) mod 8 = 0.
Proof.
  intros [v|te tr ks]; cbn [w_values].
  - unfold w_read_value. rewrite !len_app, w64_len. repeat apply m8_add; try apply m8_64. reflexivity.
  - unfold w_group. rewrite !len_app, w64_len. repeat apply m8_add; try apply m8_64; [reflexivity|].
    rewrite (w_list_ext _ (w_counter o w) (fun k => w_list (w64 o) (counter_words w k))).
    + rewrite <- w_list_concat. apply m8_u64s.
    + intros k. symmetry. unfold counter_words, w_counter, w_list.
      destruct (rbit w 2), (rbit w 4); cbn [map concat app w_if]; rewrite ?app_nil_r; reflexivity.
Qed.

Lemma m8_raw : forall d, len (raw_bytes o d) mod 8 = 0.
Proof.
  intros d. unfold raw_bytes. rewrite !len_app, w32_len, zeros_len, N.add_assoc. apply pad8_spec.
Qed.

Lemma m8_regs : forall r, len (w_regs o r) mod 8 = 0.
Proof.
  intros r. unfold w_regs. rewrite len_app, w64_len. apply m8_add; [reflexivity|].
  destruct (negb (rg_abi r =? 0)); cbn [w_if]; [apply m8_u64s|reflexivity].
Qed.

Lemma m8_stack : forall d n, len d mod 8 = 0 -> len (w_stack o d n) mod 8 = 0.
Proof.
  intros d n H. unfold w_stack. rewrite !len_app, w64_len. repeat apply m8_add; [reflexivity|exact H|].
  apply m8_64.
Qed.
End Lengths.

Definition regs_dumped (x : option (registers list)) : Prop :=
  opt_all (fun r => len (rg_regs r) = bits_set (rg_mask r)) x.

Lemma opt_all_some : forall A (P : A -> Prop) x v, opt_all P x -> x = Some v -> P v.
Proof. intros A P x v H ->. exact H. Qed.

Section RtSample.
Context (pl : platform) (Hpl : pl_ok pl) (a0 : N) (poke : bool) (env : fenv).
Context (w : settings) (Hw : configured (fe_cfg env) w).

Let o := order_of pl (c_endian (fe_cfg env)).

Lemma Rt_field : forall A R b (m : F R) (f : A -> list N) (g : A -> R) (n : A -> N) x rest pos,
  has b x -> len (w_opt b x f) <= usize_max pl ->
  (empty_if b x n = true -> rest <> []) ->
  (forall v, x = Some v -> len (f v) <= usize_max pl -> (n v = 0 -> rest <> []) ->
     Rt a0 poke env m (f v) (g v) rest pos) ->
  Rt a0 poke env (f_if b m) (w_opt b x f) (option_map g x) rest pos.
Proof.
  intros A R b m f g n x rest pos Hh Hlen Hne H.
  destruct b, x as [v|]; cbn [has w_opt w_if f_if option_map empty_if andb] in *; try discriminate.
  - eapply Rt_last; [apply H|apply Rt_ret]; try reflexivity; [exact Hlen|].
    intros E. apply Hne. now apply N.eqb_eq.
  - contradiction Hh. reflexivity.
  - apply Rt_ret.
Qed.

Lemma host_last : forall n (rest : list N), (in_host o (pl_host pl) n = 0 -> rest <> []) ->
  o = pl_host pl -> n = 0 -> rest <> [].
Proof. intros n rest H E En. apply H. rewrite <- E, En. now destruct o. Qed.

Lemma id_map : forall A (x : option A), option_map (fun v => v) x = x.
Proof. now intros A []. Qed.

Ltac al8 := repeat (apply mod8_add; [|first [assumption | apply m8_64 | apply m8_32]]); assumption.

Lemma Rt_sample : forall x rest pos,
  (sbit w 4 = true -> known_format w) -> (sbit w 24 = true -> sbit w 14 = true) ->
  sample_ok w x -> followed (w_fields o w (pl_host pl) x) rest ->
  regs_dumped (s_regs_user (sw_sample x)) -> regs_dumped (s_regs_intr (sw_sample x)) ->
  len (w_sample o w x) <= usize_max pl -> (a0 + pos) mod 8 = 0 ->
  Rt a0 poke env (f_sample pl) (w_sample o w x) (sw_sample x) rest pos.
Proof.
  intros x rest pos Hk H24 Hok Hfol Hru Hri Hlen Ha.
  destruct x as [s vals tail]. unfold sample_ok in Hok. cbv zeta in Hok.
  cbn [sw_sample sw_values sw_stack_tail] in Hok, Hru, Hri |- *.
  destruct Hok as (Hip & Hpid & Htid & Htime & Haddr & Hid & Hsid & Hcpu & Hper & (Hv1 & Hv2 & Hv3) &
    (Hc1 & Hc2) & (Hr1 & Hr2 & Hr3) & (Hb1 & Hb2 & Hb3) & (Hu1 & Hu2) & (Ht1 & Ht2 & Ht3 & Ht4) & Hwt & Hds &
    Htx & (Hi1 & Hi2) & Hpa & Hcg & Hdp & Hcp & (Hx1 & Hx2 & Hx3)).
  unfold f_sample. eapply Rt_bind0; [apply Rt_cfg|]. cbv beta zeta.
  unfold SF_IP, SF_TID, SF_TIME, SF_ADDR, SF_READ, SF_CALLCHAIN, SF_ID, SF_CPU, SF_PERIOD,
    SF_STREAM_ID, SF_RAW, SF_BRANCH_STACK, SF_REGS_USER, SF_STACK_USER, SF_WEIGHT, SF_DATA_SRC,
    SF_IDENTIFIER, SF_TRANSACTION, SF_REGS_INTR, SF_PHYS_ADDR, SF_AUX, SF_CGROUP,
    SF_DATA_PAGE_SIZE, SF_CODE_PAGE_SIZE.
  rewrite !(cfg_sbit env w Hw).
  unfold w_sample, w_fields in Hlen |- *. unfold w_fields in Hfol. cbv zeta in Hlen, Hfol |- *.
  cbn [sw_sample sw_values sw_stack_tail] in Hlen, Hfol |- *.
  cbn [map fst concat followed] in Hlen, Hfol |- *.
  assert (E24 : sbit w 14 || sbit w 24 = sbit w 14)
    by (clear - H24; destruct (sbit w 14), (sbit w 24); try reflexivity; discriminate (H24 eq_refl)).
  rewrite E24 in *.
  destruct Hfol as (_ & _ & _ & _ & _ & _ & _ & _ & _ & Fv & Fc & _ & Fb & Fu & Ft & _ & _ & _ & Fi &
    _ & _ & _ & _ & Fx & _).
  assert (Av : len (w_opt (sbit w 4) vals (w_values o w)) mod 8 = 0)
    by (apply m8_opt; intros; apply m8_values).
  assert (Ac : len (w_opt (sbit w 5) (s_callchain s) (fun l => w64 o (len l) ++ w_list (w64 o) l)) mod 8 = 0).
  { apply m8_opt; intros. rewrite len_app, w64_len. apply m8_add; [reflexivity|apply m8_u64s]. }
  assert (Ar : len (w_opt (sbit w 10) (s_raw s) (raw_bytes o)) mod 8 = 0)
    by (apply m8_opt; intros; apply m8_raw).
  assert (Ab : len (w_opt (sbit w 11) (s_lbr s)
       (fun l => w64 o (len l) ++ w_if (ws_hw_index w) (w64 o (val (s_lbr_hw_index s))) ++
                 w_list (w_branch o) l)) mod 8 = 0).
  { apply m8_opt; intros. rewrite !len_app, w64_len, (w_list_len _ _ 24) by apply w_branch_len.
    repeat apply m8_add; [reflexivity|apply m8_64|]. rewrite N.mul_mod by discriminate.
    change (24 mod 8) with 0. rewrite N.mul_0_r. reflexivity. }
  assert (Au : len (w_opt (sbit w 12) (s_regs_user s) (w_regs o)) mod 8 = 0)
    by (apply m8_opt; intros; apply m8_regs).
  assert (At : len (w_opt (sbit w 13) (s_stack_user s)
                 (fun d => w_stack o (d ++ tail) (len d))) mod 8 = 0).
  { apply m8_opt; intros v E. apply m8_stack. rewrite len_app. exact (opt_all_some _ _ _ _ Ht4 E). }
  assert (Ai : len (w_opt (sbit w 18) (s_regs_intr s) (w_regs o)) mod 8 = 0)
    by (apply m8_opt; intros; apply m8_regs).
  rewrite !len_app in Hlen.
  eapply Rt_bind. { eapply Rt_f64_or; [exact Hid|]. intros ->. apply orb_true_r. }
  eapply Rt_bind. { apply Rt_f64; assumption. }
  cbv beta. apply Rt_f32x2; [assumption|assumption|].
  eapply Rt_bind. { apply Rt_f64; assumption. }
  eapply Rt_bind. { apply Rt_f64; assumption. }
  eapply Rt_bind. { eapply Rt_f64_or; [exact Hid|]. intros ->. reflexivity. }
  eapply Rt_bind. { apply Rt_f64; assumption. }
  eapply Rt_bind. { apply Rt_cpu; assumption. }
  eapply Rt_bind. { apply Rt_f64; assumption. }
  eapply Rt_bind.
  { eapply (Rt_field _ _ _ _ _ (group_of w) (fun v => in_host o (pl_host pl) (values_count v))); [assumption|lia| |].
    - intros E. now apply Fv.
    - intros v E Hl Hn. apply Rt_values; try assumption; [| |now apply host_last|al8].
      + apply Hk. destruct (sbit w 4); [reflexivity|]. cbn [has] in Hv1. congruence.
      + exact (opt_all_some _ _ _ _ Hv2 E). }
  eapply Rt_bind.
  { eapply (Rt_field _ _ _ _ _ (fun v => v) (fun l => in_host o (pl_host pl) (len l))); [assumption|lia| |].
    - intros E. now apply Fc.
    - intros v E Hl Hn. apply Rt_callchain; try assumption; [|now apply host_last|al8].
      exact (opt_all_some _ _ _ _ Hc2 E). }
  eapply Rt_bind.
  { eapply (Rt_field _ _ _ _ _ (fun v => v) (fun _ => 1)); [assumption|lia| |].
    - intros E. destruct (s_raw s); cbn in E; [|discriminate]. rewrite andb_false_r in E. discriminate.
    - intros v E Hl Hn. apply Rt_raw; try assumption. exact (opt_all_some _ _ _ _ Hr3 E). }
  eapply Rt_bind.
  { eapply (Rt_field _ _ _ _ _ (fun v => (v, s_lbr_hw_index s)) (fun l => in_host o (pl_host pl) (len l))); [assumption|lia| |].
    - intros E. now apply Fb.
    - intros v E Hl Hn. apply Rt_lbr; try assumption; [| |now apply host_last|al8].
      + exact (opt_all_some _ _ _ _ Hb2 E).
      + destruct (sbit w 11); [exact Hb3|]. rewrite E in Hb1. discriminate. }
  eapply Rt_bind.
  { eapply (Rt_field _ _ _ _ _ (fun v => v) (fun r => in_host o (pl_host pl) (len (rg_regs r)))); [assumption|lia| |].
    - intros E. now apply Fu.
    - intros v E Hl Hn. apply Rt_regs; try assumption; [| |now apply host_last|al8].
      + replace (c_regs_user (fe_cfg env)) with (ws_regs_user w) by (symmetry; apply Hw).
        exact (opt_all_some _ _ _ _ Hu2 E).
      + exact (opt_all_some _ _ _ _ Hru E). }
  eapply Rt_bind.
  { eapply (Rt_field _ _ _ _ _ (fun v => v) (fun d => len (d ++ tail))); [assumption|lia| |].
    - intros E. now apply Ft.
    - intros v E Hl Hn. now apply Rt_stack. }
  eapply Rt_bind. { apply Rt_f64; assumption. }
  eapply Rt_bind. { apply Rt_f64; assumption. }
  eapply Rt_bind. { apply Rt_f64; assumption. }
  eapply Rt_bind.
  { eapply (Rt_field _ _ _ _ _ (fun v => v) (fun r => in_host o (pl_host pl) (len (rg_regs r)))); [assumption|lia| |].
    - intros E. now apply Fi.
    - intros v E Hl Hn. apply Rt_regs; try assumption; [| |now apply host_last|al8].
      + replace (c_regs_intr (fe_cfg env)) with (ws_regs_intr w) by (symmetry; apply Hw).
        exact (opt_all_some _ _ _ _ Hi2 E).
      + exact (opt_all_some _ _ _ _ Hri E). }
  eapply Rt_bind. { apply Rt_f64; assumption. }
  eapply Rt_bind. { apply Rt_f64; assumption. }
  eapply Rt_bind. { apply Rt_f64; assumption. }
  eapply Rt_bind. { apply Rt_f64; assumption. }
  eapply Rt_bind.
  { eapply (Rt_field _ _ _ _ _ (fun v => v) len); [assumption|lia| |].
    - intros E. now apply Fx.
    - intros v E Hl Hn. now apply Rt_aux. }
  apply Rt_ret_eq. rewrite !id_map, <- Hv3.
  destruct s as [ip pid tid time addr id sid cpu per vs cc raw hwi lbr ru su wt ds tx ri pa aux cg dp cp].
  cbn [s_id s_lbr s_lbr_hw_index s_ip s_pid s_tid s_time s_addr s_stream_id s_cpu s_period s_values
    s_callchain s_raw s_regs_user s_stack_user s_weight s_data_src
    s_transaction s_regs_intr s_phys_addr s_aux s_cgroup s_data_page_size s_code_page_size] in *.
  f_equal.
  - destruct id, (sbit w 6), (sbit w 16); cbn in *; try reflexivity; destruct Hid; discriminate.
  - destruct lbr; cbn [option_map]; [reflexivity|].
    destruct hwi; [|reflexivity]. cbn [field] in Hb3. destruct Hb3 as [Hb3 _].
    destruct (sbit w 11); [|discriminate]. contradiction Hb1. reflexivity.
  - now destruct lbr.
Qed.

End RtSample.
