(** [f_sample] fails on a sample that ends in an empty variable-length part, and
    what it returns otherwise. *)
From Coq Require Import NArith List Bool Lia.
From Verif Require Import Base BaseFacts Types Platform Config Bits ConfFacts Records Sample
  Record Flat Wire Codec Roundtrip RtSample RtRecord.
Import ListNotations.
Open Scope N_scope.

Lemma followed_rest : forall l rest, rest <> [] -> followed l rest.
Proof.
  intros l rest H. induction l as [|[d b] t IH]; [exact I|]. split; [|exact IH].
  intros _. now apply app_nonnil_r.
Qed.

Section Fail.
Context (pl : platform) (Hpl : pl_ok pl) (a0 : N) (poke : bool) (env : fenv).

Let o := order_of pl (c_endian (fe_cfg env)).

Notation Rt := (Rt a0 poke env).

(** [f] runs out of data on [bs]. *)
Definition Rf {B : Type} (f : F B) (bs : list N) (pos : N) : Prop :=
  exists l' p' ev, f env bs pos = FErr (fe_fin env) l' p' ev /\ Forall (ev_fine a0 poke) ev.

Lemma Rf_bind_l : forall B C (m : F B) (k : B -> F C) bs pos,
  Rf m bs pos -> Rf (fbind m k) bs pos.
Proof.
  intros B C m k bs pos (l' & p' & ev & E & H). exists l', p', ev. split; [|exact H].
  unfold fbind. now rewrite E.
Qed.

Lemma Rf_bind : forall B C (m : F B) (k : B -> F C) bs1 b bs2 pos,
  Rt m bs1 b bs2 pos -> Rf (k b) bs2 (pos + len bs1) -> Rf (fbind m k) (bs1 ++ bs2) pos.
Proof.
  intros B C m k bs1 b bs2 pos (ev1 & E1 & H1) (l' & p' & ev & E & H).
  exists l', p', (ev1 ++ ev). split; [|now apply Forall_app].
  unfold fbind. now rewrite E1, E.
Qed.

Lemma Rf_bind0 : forall B C (m : F B) (k : B -> F C) b bs pos,
  Rt m [] b bs pos -> Rf (k b) bs pos -> Rf (fbind m k) bs pos.
Proof.
  intros B C m k b bs pos H1 H2. change bs with ([] ++ bs). eapply Rf_bind; [exact H1|].
  now rewrite len_nil, N.add_0_r.
Qed.

Lemma Rf_last : forall B C (m : F B) (k : B -> F C) bs b pos,
  Rt m bs b [] pos -> Rf (k b) [] (pos + len bs) -> Rf (fbind m k) bs pos.
Proof. intros B C m k bs b pos H1 H2. rewrite <- (app_nil_r bs). eapply Rf_bind; eassumption. Qed.

Lemma Rf_take : forall n pos, Rf (f_take n) [] pos.
Proof. intros n pos. do 3 eexists. split; [reflexivity|constructor]. Qed.

Lemma Rf_array : forall B (E : felem B) n pos, o = pl_host pl -> n * fl_size E <= usize_max pl ->
  Rf (f_array pl E n) [] pos.
Proof.
  intros B E n pos Ho Hn. unfold Rf, f_array. fold o. cbv zeta.
  replace (order_eqb o (pl_host pl)) with true by (rewrite Ho; now destruct (pl_host pl)).
  replace (usize_max pl <? n * fl_size E) with false by (symmetry; now apply N.ltb_ge).
  cbn [andb len length N.of_nat N.eqb]. do 3 eexists. split; [reflexivity|constructor].
Qed.

Lemma Rf_if : forall B b (m : F B) bs pos, b = true -> Rf m bs pos -> Rf (f_if b m) bs pos.
Proof. intros B b m bs pos -> H. cbn [f_if]. now apply Rf_bind_l. Qed.

Lemma in_host_0 : forall n, in_host o (pl_host pl) n = 0 -> o = pl_host pl /\ n = 0.
Proof. intros n. unfold in_host. destruct o, (pl_host pl); try discriminate; auto. Qed.

Context (w : settings) (Hw : configured (fe_cfg env) w).

Lemma Rf_read_group : forall te tr pos, known_format w -> rbit w 3 = true ->
  num (rbit w 0) te -> num (rbit w 1) tr -> o = pl_host pl ->
  Rf (f_read_group pl) (w_group o w te tr []) pos.
Proof.
  intros te tr pos Hk Hg Hte Htr Ho.
  unfold f_read_group. eapply Rf_bind0; [apply Rt_cfg|]. cbv beta zeta.
  unfold RF_GROUP, RF_TIME_ENABLED, RF_TIME_RUNNING. rewrite !(cfg_rbit env w Hw), Hg. cbn [negb].
  rewrite known_difference by (destruct Hw as [_ [-> _]]; exact Hk). cbn [N.eqb negb].
  unfold w_group. eapply Rf_bind; [now apply Rt_u64|].
  eapply Rf_bind; [now apply Rt_num|]. eapply Rf_bind; [now apply Rt_num|]. cbv beta.
  rewrite as_usize_small by (change (len (@nil counter)) with 0; apply N.le_0_l).
  change (len (@nil counter)) with 0. rewrite N.mul_0_l.
  replace (usize_max pl <? 0) with false by (symmetry; apply N.ltb_ge; apply N.le_0_l).
  apply Rf_bind_l. apply Rf_array; [exact Ho|apply N.le_0_l].
Qed.

Lemma Rf_values : forall v pos, known_format w -> values_ok w v ->
  in_host o (pl_host pl) (values_count v) = 0 -> Rf (f_sample_read pl) (w_values o w v) pos.
Proof.
  intros v pos Hk Hv H0. apply in_host_0 in H0. destruct H0 as [Ho H0].
  destruct v as [v|te tr ks]; [discriminate|]. cbn [values_count values_ok w_values] in *.
  apply len_0 in H0. subst ks. destruct Hv as (Hg & Hte & Htr & _).
  unfold f_sample_read. eapply Rf_bind0; [apply Rt_cfg|]. cbv beta. unfold RF_GROUP.
  rewrite (cfg_rbit env w Hw), Hg. now apply Rf_read_group.
Qed.

Lemma Rf_callchain : forall (l : list N) pos, in_host o (pl_host pl) (len l) = 0 ->
  Rf (f_callchain pl) (w64 o (len l) ++ w_list (w64 o) l) pos.
Proof.
  intros l pos H0. apply in_host_0 in H0. destruct H0 as [Ho H0]. apply len_0 in H0. subst l.
  unfold f_callchain. eapply Rf_bind; [now apply Rt_u64|].
  change (len (@nil N)) with 0. rewrite as_usize_small by apply N.le_0_l.
  apply Rf_array; [exact Ho|apply N.le_0_l].
Qed.

Lemma Rf_lbr : forall (hw : option N) l pos, in_host o (pl_host pl) (len l) = 0 ->
  field (ws_hw_index w) (2 ^ 64) hw ->
  Rf (f_lbr pl (branch_hw_index (fe_cfg env)))
     (w64 o (len l) ++ w_if (ws_hw_index w) (w64 o (val hw)) ++ w_list (w_branch o) l) pos.
Proof.
  intros hw l pos H0 Hh. apply in_host_0 in H0. destruct H0 as [Ho H0]. apply len_0 in H0. subst l.
  unfold f_lbr. replace (branch_hw_index (fe_cfg env)) with (ws_hw_index w) by (symmetry; apply Hw).
  eapply Rf_bind; [now apply Rt_u64|]. eapply Rf_bind; [apply Rt_f64; exact Hh|]. cbv beta.
  change (len (@nil branch_entry)) with 0. rewrite as_usize_small by apply N.le_0_l.
  apply Rf_bind_l. apply Rf_array; [exact Ho|apply N.le_0_l].
Qed.

Lemma Rf_regs : forall mask r pos, regs_ok mask r -> len (rg_regs r) = bits_set (rg_mask r) ->
  in_host o (pl_host pl) (len (rg_regs r)) = 0 -> Rf (f_registers pl mask) (w_regs o r) pos.
Proof.
  intros mask r pos (Habi & Hm & Hm64 & Hl & Hb) Hd H0. apply in_host_0 in H0. destruct H0 as [Ho H0].
  unfold f_registers, w_regs. eapply Rf_bind; [now apply Rt_u64|].
  rewrite Hm in Hd. rewrite popcount_bits_set by assumption. rewrite <- Hd, H0.
  apply len_0 in H0. rewrite H0.
  replace (w_if (negb (rg_abi r =? 0)) (w_list (w64 o) [])) with (@nil N) by now destruct (rg_abi r =? 0).
  apply Rf_bind_l. apply Rf_array; [exact Ho|apply N.le_0_l].
Qed.

Lemma Rf_stack : forall dump k pos, len dump = 0 -> Rf (f_stack_user pl) (w_stack o dump k) pos.
Proof.
  intros dump k pos H0. apply len_0 in H0. subst dump. unfold f_stack_user, w_stack.
  eapply Rf_bind; [now apply Rt_u64|]. apply Rf_bind_l. apply Rf_take.
Qed.

Lemma Rf_aux : forall d pos, len d = 0 -> Rf (f_sample_aux pl) (w64 o (len d) ++ d) pos.
Proof.
  intros d pos H0. apply len_0 in H0. subst d. unfold f_sample_aux.
  eapply Rf_bind; [now apply Rt_u64|]. apply Rf_take.
Qed.

(** One variable-length field: either the parser goes on or it fails here. *)
Lemma Rf_step : forall A R C b (m : F R) (f : A -> list N) (g : A -> R) (n : A -> N) x (k : option R -> F C) bs2 pos,
  has b x -> len (w_opt b x f) <= usize_max pl ->
  (forall v rest, x = Some v -> len (f v) <= usize_max pl -> (n v = 0 -> rest <> []) ->
     Rt m (f v) (g v) rest pos) ->
  (forall v, x = Some v -> n v = 0 -> Rf m (f v) pos) ->
  ((empty_if b x n = true -> bs2 <> []) -> Rf (k (option_map g x)) bs2 (pos + len (w_opt b x f))) ->
  Rf (fbind (f_if b m) k) (w_opt b x f ++ bs2) pos.
Proof.
  intros A R C b m f g n x k bs2 pos Hh Hlen Hgo Hstop Hk.
  assert (Hd : (empty_if b x n = true /\ bs2 = []) \/ (empty_if b x n = true -> bs2 <> [])).
  { destruct bs2; [|right; discriminate]. destruct (empty_if b x n); [left; auto|right; discriminate]. }
  destruct Hd as [[He ->]|He].
  - apply Rf_bind_l. destruct x as [v|]; [|discriminate]. cbn [empty_if] in He.
    apply andb_true_iff in He. destruct He as [-> He]. apply N.eqb_eq in He.
    cbn [w_opt w_if]. rewrite app_nil_r. apply Rf_if; [reflexivity|]. now apply Hstop.
  - eapply Rf_bind; [|now apply Hk].
    eapply (Rt_field pl); [assumption|assumption|exact He|]. intros v E Hl Hn. now apply Hgo.
Qed.

Ltac al8 := repeat (apply mod8_add; [|first [assumption | apply m8_64 | apply m8_32]]); assumption.

Lemma Rf_f32x2 : forall C b x y (k : option N -> option N -> F C) bs pos,
  field b (2 ^ 32) x -> field b (2 ^ 32) y ->
  Rf (k x y) bs (pos + len (w_if b (w32 o (val x) ++ w32 o (val y)))) ->
  Rf (x <~ f_if b (f_uint pl 4) ;; y <~ f_if b (f_uint pl 4) ;; k x y)
     (w_if b (w32 o (val x) ++ w32 o (val y)) ++ bs) pos.
Proof.
  intros C b x y k bs pos Hx Hy Hk.
  replace (w_if b (w32 o (val x) ++ w32 o (val y)) ++ bs)
    with (w_if b (w32 o (val x)) ++ w_if b (w32 o (val y)) ++ bs)
    by (destruct b; cbn [w_if]; now rewrite ?app_assoc).
  assert (H32 : forall z rest pos, field b (2 ^ 32) z ->
            Rt (f_if b (f_uint pl 4)) (w_if b (w32 o (val z))) z rest pos).
  { intros z r q Hz. rewrite <- (field_eq b _ z Hz) at 2. apply Rt_if. intros Hb. apply Rt_u32.
    exact (field_lt _ _ _ Hz Hb). }
  eapply Rf_bind; [apply H32; exact Hx|]. eapply Rf_bind; [apply H32; exact Hy|].
  replace (pos + len (w_if b (w32 o (val x))) + len (w_if b (w32 o (val y))))
    with (pos + len (w_if b (w32 o (val x) ++ w32 o (val y)))); [exact Hk|].
  destruct b; cbn [w_if]; rewrite ?len_app, ?len_nil; lia.
Qed.

Lemma Rf_sample : forall x pos,
  (sbit w 4 = true -> known_format w) -> (sbit w 24 = true -> sbit w 14 = true) ->
  sample_ok w x -> ~ followed (w_fields o w (pl_host pl) x) [] ->
  regs_dumped (s_regs_user (sw_sample x)) -> regs_dumped (s_regs_intr (sw_sample x)) ->
  len (w_sample o w x) <= usize_max pl -> (a0 + pos) mod 8 = 0 ->
  Rf (f_sample pl) (w_sample o w x) pos.
Proof.
  intros x pos Hk H24 Hok Hfol Hru Hri Hlen Ha.
  destruct x as [s vals tail]. unfold sample_ok in Hok. cbv zeta in Hok.
  cbn [sw_sample sw_values sw_stack_tail] in Hok, Hru, Hri |- *.
  destruct Hok as (Hip & Hpid & Htid & Htime & Haddr & Hid & Hsid & Hcpu & Hper & (Hv1 & Hv2 & Hv3) &
    (Hc1 & Hc2) & (Hr1 & Hr2 & Hr3) & (Hb1 & Hb2 & Hb3) & (Hu1 & Hu2) & (Ht1 & Ht2 & Ht3 & Ht4) & Hwt & Hds &
    Htx & (Hi1 & Hi2) & Hpa & Hcg & Hdp & Hcp & (Hx1 & Hx2 & Hx3)).
  unfold f_sample. eapply Rf_bind0; [apply Rt_cfg|]. cbv beta zeta.
  unfold SF_IP, SF_TID, SF_TIME, SF_ADDR, SF_READ, SF_CALLCHAIN, SF_ID, SF_CPU, SF_PERIOD,
    SF_STREAM_ID, SF_RAW, SF_BRANCH_STACK, SF_REGS_USER, SF_STACK_USER, SF_WEIGHT, SF_DATA_SRC,
    SF_IDENTIFIER, SF_TRANSACTION, SF_REGS_INTR, SF_PHYS_ADDR, SF_AUX, SF_CGROUP,
    SF_DATA_PAGE_SIZE, SF_CODE_PAGE_SIZE.
  rewrite !(cfg_sbit env w Hw).
  unfold w_sample, w_fields in Hlen |- *. unfold w_fields in Hfol. cbv zeta in Hlen, Hfol |- *.
  cbn [sw_sample sw_values sw_stack_tail] in Hlen, Hfol |- *.
  cbn [map fst concat followed] in Hlen, Hfol |- *. rewrite !app_nil_r in Hfol.
  assert (E24 : sbit w 14 || sbit w 24 = sbit w 14)
    by (clear - H24; destruct (sbit w 14), (sbit w 24); try reflexivity; discriminate (H24 eq_refl)).
  rewrite E24 in *.
  assert (Av : len (w_opt (sbit w 4) vals (w_values o w)) mod 8 = 0)
    by (apply m8_opt; intros; apply m8_values).
  assert (Ac : len (w_opt (sbit w 5) (s_callchain s) (fun l => w64 o (len l) ++ w_list (w64 o) l)) mod 8 = 0).
  { apply m8_opt; intros. rewrite len_app, w64_len. apply m8_add; [reflexivity|apply m8_u64s]. }
  assert (Ar : len (w_opt (sbit w 10) (s_raw s) (raw_bytes o)) mod 8 = 0)
    by (apply m8_opt; intros; apply m8_raw).
  assert (Ab : len (w_opt (sbit w 11) (s_lbr s)
       (fun l => w64 o (len l) ++ w_if (ws_hw_index w) (w64 o (val (s_lbr_hw_index s))) ++
                 w_list (w_branch o) l)) mod 8 = 0).
  { apply m8_opt; intros. rewrite !len_app, w64_len, (w_list_len _ _ 24) by apply w_branch_len.
    repeat apply m8_add; [reflexivity|apply m8_64|]. rewrite N.mul_mod by discriminate.
    change (24 mod 8) with 0. rewrite N.mul_0_r. reflexivity. }
  assert (Au : len (w_opt (sbit w 12) (s_regs_user s) (w_regs o)) mod 8 = 0)
    by (apply m8_opt; intros; apply m8_regs).
  assert (At : len (w_opt (sbit w 13) (s_stack_user s)
                 (fun d => w_stack o (d ++ tail) (len d))) mod 8 = 0).
  { apply m8_opt; intros v E. apply m8_stack. rewrite len_app. exact (opt_all_some _ _ _ _ Ht4 E). }
  assert (Ai : len (w_opt (sbit w 18) (s_regs_intr s) (w_regs o)) mod 8 = 0)
    by (apply m8_opt; intros; apply m8_regs).
  assert (Hk' : forall v, vals = Some v -> known_format w).
  { intros v E. apply Hk. destruct (sbit w 4); [reflexivity|]. cbn [has] in Hv1. congruence. }
  assert (Hh' : forall v, s_lbr s = Some v -> field (ws_hw_index w) (2 ^ 64) (s_lbr_hw_index s)).
  { intros v E. destruct (sbit w 11); [exact Hb3|]. rewrite E in Hb1. discriminate. }
  rewrite !len_app in Hlen.
  eapply Rf_bind. { eapply Rt_f64_or; [exact Hid|]. intros ->. apply orb_true_r. }
  eapply Rf_bind. { apply Rt_f64; assumption. }
  cbv beta. apply Rf_f32x2; [assumption|assumption|].
  eapply Rf_bind. { apply Rt_f64; assumption. }
  eapply Rf_bind. { apply Rt_f64; assumption. }
  eapply Rf_bind. { eapply Rt_f64_or; [exact Hid|]. intros ->. reflexivity. }
  eapply Rf_bind. { apply Rt_f64; assumption. }
  eapply Rf_bind. { apply Rt_cpu; assumption. }
  eapply Rf_bind. { apply Rt_f64; assumption. }
  eapply (Rf_step _ _ _ _ _ _ (group_of w) (fun v => in_host o (pl_host pl) (values_count v))); [assumption|lia| | |intros Fv].
  { intros v rest E Hl Hn. apply Rt_values; try assumption; [now apply (Hk' v)| |now apply host_last|al8].
    exact (opt_all_some _ _ _ _ Hv2 E). }
  { intros v E Hn. apply Rf_values; [now apply (Hk' v)| |exact Hn]. exact (opt_all_some _ _ _ _ Hv2 E). }
  eapply (Rf_step _ _ _ _ _ _ (fun v => v) (fun l => in_host o (pl_host pl) (len l))); [assumption|lia| | |intros Fc].
  { intros v rest E Hl Hn. apply Rt_callchain; try assumption; [|now apply host_last|al8].
    exact (opt_all_some _ _ _ _ Hc2 E). }
  { intros v E Hn. now apply Rf_callchain. }
  eapply Rf_bind.
  { eapply (Rt_field pl a0 poke env _ _ _ _ _ (fun v => v) (fun _ => 1)); [assumption|lia| |].
    - intros E. destruct (s_raw s); cbn in E; [|discriminate]. rewrite andb_false_r in E. discriminate.
    - intros v E Hl Hn. apply Rt_raw; try assumption. exact (opt_all_some _ _ _ _ Hr3 E). }
  eapply (Rf_step _ _ _ _ _ _ (fun v => (v, s_lbr_hw_index s)) (fun l => in_host o (pl_host pl) (len l))); [assumption|lia| | |intros Fb].
  { intros v rest E Hl Hn. apply Rt_lbr; try assumption; [| |now apply host_last|al8].
    - exact (opt_all_some _ _ _ _ Hb2 E).
    - now apply (Hh' v). }
  { intros v E Hn. apply Rf_lbr; [exact Hn|]. now apply (Hh' v). }
  eapply (Rf_step _ _ _ _ _ _ (fun v => v) (fun r => in_host o (pl_host pl) (len (rg_regs r)))); [assumption|lia| | |intros Fu].
  { intros v rest E Hl Hn. apply Rt_regs; try assumption; [| |now apply host_last|al8].
    - replace (c_regs_user (fe_cfg env)) with (ws_regs_user w) by (symmetry; apply Hw).
      exact (opt_all_some _ _ _ _ Hu2 E).
    - exact (opt_all_some _ _ _ _ Hru E). }
  { intros v E Hn. apply Rf_regs; [|exact (opt_all_some _ _ _ _ Hru E)|exact Hn].
    replace (c_regs_user (fe_cfg env)) with (ws_regs_user w) by (symmetry; apply Hw).
    exact (opt_all_some _ _ _ _ Hu2 E). }
  eapply (Rf_step _ _ _ _ _ _ (fun v => v) (fun d => len (d ++ tail))); [assumption|lia| | |intros Ft].
  { intros v rest E Hl Hn. now apply Rt_stack. }
  { intros v E Hn. now apply Rf_stack. }
  eapply Rf_bind. { apply Rt_f64; assumption. }
  eapply Rf_bind. { apply Rt_f64; assumption. }
  eapply Rf_bind. { apply Rt_f64; assumption. }
  eapply (Rf_step _ _ _ _ _ _ (fun v => v) (fun r => in_host o (pl_host pl) (len (rg_regs r)))); [assumption|lia| | |intros Fi].
  { intros v rest E Hl Hn. apply Rt_regs; try assumption; [| |now apply host_last|al8].
    - replace (c_regs_intr (fe_cfg env)) with (ws_regs_intr w) by (symmetry; apply Hw).
      exact (opt_all_some _ _ _ _ Hi2 E).
    - exact (opt_all_some _ _ _ _ Hri E). }
  { intros v E Hn. apply Rf_regs; [|exact (opt_all_some _ _ _ _ Hri E)|exact Hn].
    replace (c_regs_intr (fe_cfg env)) with (ws_regs_intr w) by (symmetry; apply Hw).
    exact (opt_all_some _ _ _ _ Hi2 E). }
  eapply Rf_bind. { apply Rt_f64; assumption. }
  eapply Rf_bind. { apply Rt_f64; assumption. }
  eapply Rf_bind. { apply Rt_f64; assumption. }
  eapply Rf_bind. { apply Rt_f64; assumption. }
  eapply (Rf_step _ _ _ _ _ _ (fun v => v) len); [assumption|lia| | |intros Fx].
  { intros v rest E Hl Hn. now apply Rt_aux. }
  { intros v E Hn. now apply Rf_aux. }
  clear - Hfol Fv Fc Fb Fu Ft Fi Fx.
  exfalso. apply Hfol. repeat split; intros E; try discriminate E.
  all: match goal with F : _ -> _ <> [] |- _ => specialize (F E); rewrite ?app_nil_r in F; exact F end.
Qed.

End Fail.

(** What a parser that succeeds has done. *)
Lemma fbind_inv : forall B C (m : F B) (k : B -> F C) env l pos c l' p' ev,
  fbind m k env l pos = FOk c l' p' ev ->
  exists b l1 p1 ev1 ev2, m env l pos = FOk b l1 p1 ev1 /\ k b env l1 p1 = FOk c l' p' ev2.
Proof.
  intros B C m k env l pos c l' p' ev E. unfold fbind in E.
  destruct (m env l pos) as [b l1 p1 ev1|] eqn:E1; [|discriminate].
  destruct (k b env l1 p1) as [c2 l2 p2 ev2|] eqn:E2; [|discriminate].
  injection E as <- <- <- _. exists b, l1, p1, ev1, ev2. auto.
Qed.

Lemma f_if_inv : forall B b (m : F B) env l pos c l' p' ev, f_if b m env l pos = FOk c l' p' ev ->
  if b then exists v ev1, c = Some v /\ m env l pos = FOk v l' p' ev1 else c = None.
Proof.
  intros B [] m env l pos c l' p' ev E; cbn [f_if] in E.
  - apply fbind_inv in E. destruct E as (v & l1 & p1 & ev1 & ev2 & E1 & E2). injection E2 as <- <- <- _. eauto.
  - now injection E as <- _ _ _.
Qed.

Lemma decode_len : forall B (E : felem B) o l n, 0 < fl_size E -> len l = n * fl_size E -> len (decode E o l) = n.
Proof.
  intros B E o l n Hs Hl. unfold decode, len. rewrite map_length. fold (len (chunks (fl_size E) l)).
  rewrite len_chunks, Hl by exact Hs. apply N.div_mul. lia.
Qed.

(** * Records that cannot be read *)

(** Nothing but an empty variable-length part at its end is wrong with [b]. *)
Definition ends_empty (host o : order) (w : settings) (b : wbody) : Prop :=
  match b with
  | WSample x =>
      (sbit w 4 = true -> known_format w) /\ (sbit w 24 = true -> sbit w 14 = true) /\ 
      ~ followed (w_fields o w host x) [] /\
      regs_dumped (s_regs_user (sw_sample x)) /\ regs_dumped (s_regs_intr (sw_sample x))
  | WSwitch => True
  | WNamespaces r => o = host /\ nss_entries r = []
  | WOther _ d => d = []
  | _ => False
  end.

Section Whole.
Context (pl : platform) (Hpl : pl_ok pl) (a0 : N) (poke : bool) (env : fenv).
Context (w : settings) (Hw : configured (fe_cfg env) w).

Let o := order_of pl (c_endian (fe_cfg env)).

Lemma Rf_rest : forall e pos, Rf a0 poke e f_rest [] pos.
Proof. intros e pos. do 3 eexists. split; [reflexivity|constructor]. Qed.

Lemma Rf_body : forall m b pos, m < 2 ^ 16 -> wbody_ok w m b -> ends_empty (pl_host pl) o w b ->
  len (w_body o w b) < 65536 -> (a0 + pos) mod 8 = 0 ->
  Rf a0 poke (mkEnv (with_misc (fe_cfg env) m) eof_error) (f_body pl (w_type b)) (w_body o w b) pos.
Proof.
  intros m b pos Hm Hok He Hlen Ha.
  assert (Hw' : configured (with_misc (fe_cfg env) m) w).
  { unfold configured. rewrite with_misc_sample_type, with_misc_read_format, with_misc_id_all,
      with_misc_hw_index. exact Hw. }
  pose proof (usize_big pl Hpl) as Hu.
  destruct b; cbn [ends_empty] in He; try contradiction.
  - unfold f_body. cbn [w_type N.eqb Pos.eqb]. apply Rf_bind_l. destruct He as (H1 & H2 & H3 & H4 & H5).
    apply Rf_sample; try assumption. cbn [fe_cfg]. cbn [w_body] in Hlen. fold o.
    change (c_endian (with_misc (fe_cfg env) m)) with (c_endian (fe_cfg env)). fold o. lia.
  - unfold f_body. cbn [w_type N.eqb Pos.eqb w_body]. apply Rf_bind_l, Rf_rest.
  - destruct He as [Eo El]. destruct r as [x y l]. cbn [nss_entries] in El. subst l.
    unfold f_body. cbn [w_type N.eqb Pos.eqb]. apply Rf_bind_l. unfold f_namespaces.
    cbn [w_body nss_pid nss_tid nss_entries]. destruct Hok as (H1 & H2 & _). cbn [nss_pid nss_tid] in *.
    eapply Rf_bind; [now apply Rt_u32|]. eapply Rf_bind; [now apply Rt_u32|].
    eapply Rf_bind; [apply Rt_u64; reflexivity|]. apply Rf_bind_l. cbn [w_list map concat].
    apply Rf_array; [exact Eo|]. change (len (@nil ns_entry)) with 0. rewrite as_usize_small by (try exact Hpl; lia). lia.
  - subst d. destruct Hok as [Ht _]. cbn [w_type w_body].
    assert (E : f_body pl t = fbind f_rest (fun r => fret (BUnknown r))).
    { unfold f_body. repeat match goal with
      | |- (if t =? ?k then _ else _) = _ => replace (t =? k) with false by (symmetry; apply N.eqb_neq; lia)
      end. reflexivity. }
    rewrite E. apply Rf_bind_l, Rf_rest.
Qed.

Lemma Rf_record : forall m si b rest pos,
  m < 2 ^ 16 -> sample_id_ok w si -> wbody_ok w m b -> ends_empty (pl_host pl) o w b ->
  len (w_record o w m si b) < 65536 -> (a0 + pos) mod 8 = 0 ->
  exists p' ev, f_record pl env (w_record o w m si b ++ rest) pos = FErr eof_error rest p' ev /\
    Forall (ev_fine a0 poke) ev.
Proof.
  intros m si b rest pos Hm Hsi Hok He Hlen Ha. unfold f_record, w_record in *. cbv zeta in *.
  rewrite len_app, w_header_len in Hlen. rewrite <- app_assoc.
  destruct (Rt_header pl a0 poke env (w_type b) m (8 + len (w_body o w b ++ w_trailer o w b si))
    ((w_body o w b ++ w_trailer o w b si) ++ rest) pos) as (ev1 & E1 & H1); try assumption.
  { eapply w_type_small; exact Hok. }
  unfold fbind at 1. fold o in E1. rewrite E1, w_header_len. unfold f_record_with_header.
  destruct (Rt_metadata pl a0 poke env w Hw m si b rest (pos + 8) Hsi Hok) as (ev2 & E2 & H2).
  { intros r k ->. destruct He. }
  fold o in E2. unfold fbind at 1. rewrite E2. cbn [fst snd h_type h_misc].
  unfold fbind at 1. unfold fcfg at 1. unfold fbind at 1. unfold f_sub. cbn [fst snd].
  destruct (Rf_body m b (pos + 8) Hm Hok He) as (l' & p' & ev3 & E3 & H3).
  { rewrite len_app in Hlen. lia. }
  { now apply mod8_add. }
  rewrite E3. cbn [fe_fin]. do 2 eexists. split; [reflexivity|].
  rewrite ?Forall_app; repeat split; try assumption; constructor.
Qed.

(** * MMAP records: the sample_id is read as part of the name *)

Lemma Rt_mmap_rest : forall e (r : mmap list) d pos, is_eof (fe_fin e) = true -> d <> [] ->
  mm_pid r < 2 ^ 32 -> mm_tid r < 2 ^ 32 -> mm_addr r < 2 ^ 64 -> mm_len r < 2 ^ 64 -> mm_pgoff r < 2 ^ 64 ->
  let o := order_of pl (c_endian (fe_cfg e)) in
  Rt a0 poke e (f_mmap pl)
    (w32 o (mm_pid r) ++ w32 o (mm_tid r) ++ w64 o (mm_addr r) ++ w64 o (mm_len r) ++ w64 o (mm_pgoff r) ++ d)
    (mkMmap (mm_pid r) (mm_tid r) (mm_addr r) (mm_len r) (mm_pgoff r) (strip d)) [] pos.
Proof.
  intros e [x y z n q f] d pos Hf Hd H1 H2 H3 H4 H5 o'.
  cbn [mm_pid mm_tid mm_addr mm_len mm_pgoff] in *. unfold f_mmap.
  eapply Rt_bind; [now apply Rt_u32|]. eapply Rt_bind; [now apply Rt_u32|].
  eapply Rt_bind; [now apply Rt_u64|]. eapply Rt_bind; [now apply Rt_u64|].
  eapply Rt_bind; [now apply Rt_u64|].
  eapply Rt_last; [|apply Rt_ret]. unfold f_string. eapply Rt_last; [now apply Rt_rest|apply Rt_ret].
Qed.

Lemma Rt_record_mmap : forall m si r k rest pos,
  m < 2 ^ 16 -> wbody_ok w m (WMmap r k) -> len (w_record o w m si (WMmap r k)) < 65536 ->
  Rt a0 poke env (f_record pl) (w_record o w m si (WMmap r k))
    (BMmap (mkMmap (mm_pid r) (mm_tid r) (mm_addr r) (mm_len r) (mm_pgoff r)
             (strip (w_str (mm_filename r) k ++ w_sample_id o w si))),
     mkMeta 1 m sample_id_default) rest pos.
Proof.
  intros m si r k rest pos Hm Hok Hlen. unfold f_record, w_record in *. cbv zeta in *.
  rewrite len_app, w_header_len in Hlen. cbn [w_type w_trailer] in *.
  eapply Rt_bind; [apply Rt_header; [reflexivity|exact Hm|exact Hlen]|].
  rewrite w_header_len. unfold f_record_with_header.
  set (pay := w_body o w (WMmap r k) ++ w_sample_id o w si) in *.
  eapply Rt_last.
  - unfold f_metadata_with_header. cbn [h_size h_type h_misc].
    replace (8 + len pay <? 8) with false by (symmetry; apply N.ltb_ge; lia).
    replace (8 + len pay - 8) with (len pay) by lia.
    eapply Rt_last; [apply Rt_split; reflexivity|]. cbn [N.eqb Pos.eqb orb]. apply Rt_ret.
  - cbv beta. cbn [fst snd h_type h_misc]. eapply Rt_bind0; [apply Rt_cfg|]. cbv beta.
    eapply Rt_bind0; [|apply Rt_ret]. apply Rt_sub. unfold f_body. cbn [N.eqb Pos.eqb].
    destruct Hok as (H1 & H2 & H3 & H4 & H5 & _ & _ & H6).
    eapply Rt_last; [|apply Rt_ret]. unfold pay. cbn [w_body]. rewrite <- !app_assoc.
    apply (Rt_mmap_rest (mkEnv (with_misc (fe_cfg env) m) eof_error)); try assumption; [reflexivity|].
    intros E. apply (f_equal len) in E. unfold w_str in E. rewrite !len_app, zeros_len in E. cbn in E. lia.
Qed.
End Whole.
