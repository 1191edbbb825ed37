(** Samples and trailers accept exactly the layouts of Accept.v. *)
From Coq Require Import NArith List Bool Lia.
From Verif Require Import Base BaseFacts Types Platform Config Bits ConfFacts Records Sample
  Record Flat Wire Codec Roundtrip RtSample RtRecord Accept AcceptFacts AcceptParts.
Import ListNotations.
Open Scope N_scope.

Section Whole.
Context (pl : platform) (Hpl : pl_ok pl) (env : fenv) (lim : N) (Hlim : lim <= usize_max pl).
Context (w : settings) (Hw : configured (fe_cfg env) w).

Let o := order_of pl (c_endian (fe_cfg env)).
Notation Sd := (Snd env lim).
Notation Rn := (Runs env).

(** The identifier, there twice. *)
Lemma twice_fits : forall b other x y, field b (2 ^ 64) x -> field other (2 ^ 64) y ->
  fits (l_twice o b other (opt_or y x)) (w_if b (w64 o (val x))).
Proof.
  intros b other x y Hx Hy. unfold l_twice. destruct b; cbn [w_if l_if]; [|constructor].
  destruct other, y as [y|]; cbn in Hy; try (destruct Hy; discriminate); try discriminate; cbn [opt_or].
  - apply fits_any. apply w64_len.
  - destruct x; apply fits_refl.
Qed.

Lemma once_fits : forall b x y, field b (2 ^ 64) y ->
  fits (just (w_if b (w64 o (val (opt_or y x))))) (w_if b (w64 o (val y))).
Proof.
  intros b x [y|] Hy; cbn in Hy.
  - apply fits_refl.
  - subst b. constructor.
Qed.

Lemma Runs_twice : forall b other x bs rest pos, field (other || b) (2 ^ 64) x -> bytes bs ->
  fits (l_twice o b other x) bs ->
  exists y, opt_or (if other then x else None) y = x /\ Rn (f_if b (f_uint pl 8)) bs y rest pos.
Proof.
  intros b other x bs rest pos Hx B Hf. unfold l_twice in Hf. destruct b; cbn [l_if] in Hf.
  - destruct other.
    + apply fits_any in Hf. exists (Some (from_order o bs)). split.
      * destruct x; [reflexivity|discriminate].
      * apply Runs_if. split; [reflexivity|]. apply (Runs_any pl env 8); [exact Hf|lia].
    + apply fits_just in Hf. exists x. split; [reflexivity|]. destruct x as [x|]; [|discriminate].
      destruct Hx as [_ Hx]. cbn [val] in Hf. subst bs. apply Runs_if. split; [reflexivity|]. now apply Runs_u64.
  - apply fits_nil in Hf. subst bs. exists None. rewrite orb_false_r in Hx. split.
    + destruct other, x; reflexivity || (destruct Hx; discriminate) || discriminate.
    + now apply Runs_if.
Qed.

Lemma Runs_once : forall b other x bs rest pos, field (b || other) (2 ^ 64) x ->
  fits (just (w_if b (w64 o (val x)))) bs ->
  Rn (f_if b (f_uint pl 8)) bs (if b then x else None) rest pos.
Proof.
  intros b other x bs rest pos Hx Hf. apply fits_just in Hf. subst bs. destruct b.
  - apply (Runs_f64 pl env true). destruct x; [exact Hx|discriminate].
  - now apply (Runs_f64 pl env false None).
Qed.

Ltac next l := eapply Snd_bind; [apply l|]; cbv beta.

(** The trailer. *)
Lemma Snd_sample_id : Sd (f_sample_id pl) (fun si bs _ => sample_id_ok w si /\ fits (l_sample_id o w si) bs).
Proof.
  unfold f_sample_id. apply Snd_cfg. cbv zeta.
  unfold SF_TID, SF_TIME, SF_ID, SF_STREAM_ID, SF_CPU, SF_IDENTIFIER. rewrite !(cfg_sbit env w Hw).
  replace (sample_id_all (fe_cfg env)) with (ws_id_all w) by (symmetry; apply Hw).
  unfold sample_id_ok, l_sample_id. destruct (ws_id_all w); cbn [negb andb l_if].
  - next Snd_f32. intros pid b1. next Snd_f32. intros tid b2. next Snd_f64. intros time b3.
    next Snd_f64. intros id b4. next Snd_f64. intros sid b5. next Snd_cpu. intros cpu b6.
    next Snd_f64. intros idn b7. apply Snd_ret.
    intros rest [H7 ->] [H6 F6] [H5 ->] [H4 ->] [H3 ->] [H2 ->] [H1 ->].
    cbn [si_pid si_tid si_time si_id si_stream_id si_cpu]. rewrite app_nil_r. split.
    + repeat (split; [assumption|]). split; [now apply id_given|]. now split.
    + rewrite (app_assoc (w_if (sbit w 1) _)). apply fits_app_intro; [destruct (sbit w 1); apply fits_refl|].
      apply fits_app_intro; [apply fits_refl|]. apply fits_app_intro; [now apply once_fits|].
      apply fits_app_intro; [apply fits_refl|]. apply fits_app_intro; [exact F6|]. now apply twice_fits.
  - apply Snd_ret. intros rest. cbn. repeat split. constructor.
Qed.

Lemma Runs_sample_id : forall si bs rest pos, sample_id_ok w si -> bytes bs -> fits (l_sample_id o w si) bs ->
  Rn (f_sample_id pl) bs si rest pos.
Proof.
  intros si bs rest pos Hok B Hf. unfold f_sample_id. apply Runs_cfg. cbv zeta.
  unfold SF_TID, SF_TIME, SF_ID, SF_STREAM_ID, SF_CPU, SF_IDENTIFIER. rewrite !(cfg_sbit env w Hw).
  replace (sample_id_all (fe_cfg env)) with (ws_id_all w) by (symmetry; apply Hw).
  unfold sample_id_ok, l_sample_id in *. destruct (ws_id_all w); cbn [negb andb l_if] in *; cbv zeta in Hok.
  - destruct Hok as (H1 & H2 & H3 & H4 & H5 & H6).
    apply fits_app in Hf as (b1 & r1 & -> & F1 & Hf). apply fits_app in Hf as (b2 & r2 & -> & F2 & Hf).
    apply fits_app in Hf as (b3 & r3 & -> & F3 & Hf). apply fits_app in Hf as (b4 & r4 & -> & F4 & Hf).
    apply fits_app in Hf as (b5 & b6 & -> & F5 & F6).
    apply fits_just in F1, F2, F4. unfold bytes in B. rewrite !Forall_app in B.
    replace (w_if (sbit w 1) (w32 o (val (si_pid si)) ++ w32 o (val (si_tid si)))) with
      (w_if (sbit w 1) (w32 o (val (si_pid si))) ++ w_if (sbit w 1) (w32 o (val (si_tid si)))) in F1
      by now destruct (sbit w 1).
    subst b1 b2 b4. rewrite <- app_assoc.
    eapply Runs_bind; [now apply Runs_f32|]. eapply Runs_bind; [now apply Runs_f32|].
    eapply Runs_bind; [now apply Runs_f64|]. eapply Runs_bind; [eapply Runs_once; eassumption|].
    eapply Runs_bind; [now apply Runs_f64|]. eapply Runs_bind; [apply Runs_cpu; [exact H6|exact F5]|].
    edestruct (Runs_twice (sbit w 16) (sbit w 6) (si_id si) b6) as (y & Ey & R); [exact H4|apply B|exact F6|].
    eapply Runs_last; [exact R|]. apply Runs_ret. rewrite Ey. now destruct si.
  - apply fits_nil in Hf. subst bs. apply Runs_ret. destruct Hok as (H1 & H2 & H3 & H4 & H5 & H6).
    destruct si as [a b c d e f]; cbn in *.
    destruct a; [now destruct H1|]; destruct b; [now destruct H2|]; destruct c; [now destruct H3|];
    destruct d; [now destruct H4|]; destruct e; [now destruct H5|]; destruct f; [now destruct H6|reflexivity].
Qed.

Lemma l_sample_id_len : forall si bs, fits (l_sample_id o w si) bs -> len bs = estimate_len (fe_cfg env).
Proof.
  intros si bs Hf. rewrite estimate_len_bits. destruct Hw as (-> & _ & -> & _). unfold l_sample_id in Hf.
  destruct (ws_id_all w); cbn [l_if] in Hf; [|apply fits_nil in Hf; now subst bs].
  apply fits_app in Hf as (b1 & r1 & -> & F1 & Hf). apply fits_app in Hf as (b2 & r2 & -> & F2 & Hf).
  apply fits_app in Hf as (b3 & r3 & -> & F3 & Hf). apply fits_app in Hf as (b4 & r4 & -> & F4 & Hf).
  apply fits_app in Hf as (b5 & b6 & -> & F5 & F6).
  apply fits_just in F1, F2, F3, F4. subst b1 b2 b3 b4.
  rewrite !len_app, !w_if_len, !len_app, !w32_len, !w64_len.
  assert (E5 : len b5 = if sbit w 7 then 8 else 0).
  { unfold l_cpu in F5. destruct (sbit w 7); cbn [l_if] in F5.
    - apply fits_app in F5 as (c1 & c2 & -> & F & F'). apply fits_just in F. apply fits_any in F'. subst c1.
      rewrite len_app, w32_len, F'. reflexivity.
    - apply fits_nil in F5. now subst b5. }
  assert (E6 : len b6 = if sbit w 16 then 8 else 0).
  { unfold l_twice in F6. destruct (sbit w 16); cbn [l_if] in F6.
    - destruct (sbit w 6); [now apply fits_any in F6|]. apply fits_just in F6. subst b6. apply w64_len.
    - apply fits_nil in F6. now subst b6. }
  rewrite E5, E6. unfold sbit, b2n.
  destruct (N.testbit (ws_sample_type w) 1), (N.testbit (ws_sample_type w) 2),
    (N.testbit (ws_sample_type w) 6), (N.testbit (ws_sample_type w) 9),
    (N.testbit (ws_sample_type w) 7), (N.testbit (ws_sample_type w) 16); reflexivity.
Qed.

(** Samples. *)
Context (Hru : ws_regs_user w < 2 ^ 64) (Hri : ws_regs_intr w < 2 ^ 64).

Notation is_sample := (l_sample (pl_bits pl) (pl_host pl) o w).

Ltac f64 x b := eapply Snd_bind; [apply Snd_f64|]; intros x b; cbv beta.
Ltac opt H x b := eapply Snd_bind; [apply (proj1 (part_if _ _ _ _ _ _ _ _ _ _ H))|]; intros x b; cbv beta.

Lemma Snd_sample : Sd (f_sample pl) (fun s bs rest => exists x, sw_sample x = s /\ sample_given w x /\
  laid (is_sample x) bs rest).
Proof.
  unfold f_sample. apply Snd_cfg. cbv zeta.
  unfold SF_IP, SF_TID, SF_TIME, SF_ADDR, SF_READ, SF_CALLCHAIN, SF_ID, SF_CPU, SF_PERIOD,
    SF_STREAM_ID, SF_RAW, SF_BRANCH_STACK, SF_REGS_USER, SF_STACK_USER, SF_WEIGHT, SF_DATA_SRC,
    SF_IDENTIFIER, SF_TRANSACTION, SF_REGS_INTR, SF_PHYS_ADDR, SF_AUX, SF_CGROUP,
    SF_DATA_PAGE_SIZE, SF_CODE_PAGE_SIZE.
  rewrite !(cfg_sbit env w Hw).
  replace (branch_hw_index (fe_cfg env)) with (ws_hw_index w) by (symmetry; apply Hw).
  replace (c_regs_user (fe_cfg env)) with (ws_regs_user w) by (symmetry; apply Hw).
  replace (c_regs_intr (fe_cfg env)) with (ws_regs_intr w) by (symmetry; apply Hw).
  f64 id0 b1. f64 ip b2.
  eapply Snd_bind; [apply Snd_f32|]; intros pid b3; cbv beta.
  eapply Snd_bind; [apply Snd_f32|]; intros tid b4; cbv beta.
  f64 time b5. f64 addr b6. f64 id1 b7. f64 sid b8.
  eapply Snd_bind; [apply Snd_cpu|]; intros cpu b9; cbv beta.
  f64 period b10.
  opt (part_values pl Hpl env lim Hlim w Hw) vals b11.
  opt (part_callchain pl Hpl env lim Hlim) chain b12.
  opt (part_raw pl Hpl env lim Hlim) raw b13.
  opt (part_lbr pl Hpl env lim Hlim (ws_hw_index w)) lbr b14.
  opt (part_regs pl env lim Hlim _ Hru) ru b15.
  opt (part_stack pl Hpl env lim Hlim) stack b16.
  f64 weight b17. f64 dsrc b18. f64 tx b19.
  opt (part_regs pl env lim Hlim _ Hri) ri b20.
  f64 pa b21. f64 cg b22. f64 dp b23. f64 cp b24.
  opt (part_aux pl Hpl env lim Hlim) ax b25.
  apply Snd_ret. intros rest.
  intros (x25 & -> & [G25 _] & F25 & D25) (G24 & ->) (G23 & ->) (G22 & ->) (G21 & ->)
    (x20 & -> & [G20 P20] & F20 & D20) (G19 & ->) (G18 & ->) (G17 & ->)
    (x16 & -> & [G16 _] & F16 & D16) (x15 & -> & [G15 P15] & F15 & D15) (x14 & -> & [G14 P14] & F14 & D14)
    (x13 & -> & [G13 P13] & F13 & _) (x12 & -> & [G12 P12] & F12 & D12) (x11 & -> & [G11 P11] & F11 & D11)
    (G10 & ->) (G9 & F9) (G8 & ->) (G7 & ->) (G6 & ->) (G5 & ->) (G4 & ->) (G3 & ->) (G2 & ->) (G1 & ->).
  rewrite !id_map.
  assert (El : exists l hw, x14 = match l with Some l => Some (l, hw) | None => None end /\
     has (sbit w 11) l /\ opt_all (Forall branch_ok) l /\ field (sbit w 11 && ws_hw_index w) (2 ^ 64) hw /\
     match x14 with Some (_, hw) => hw | None => None end = hw /\
     match x14 with Some (l, _) => Some l | None => None end = l).
  { destruct x14 as [[l hw]|].
    - exists (Some l), hw. destruct P14 as [P1 P2]. cbn [fst snd] in *. split; [reflexivity|].
      split; [unfold has in *; destruct (sbit w 11); [discriminate|discriminate G14]|]. split; [exact P1|].
      split; [|now split]. destruct (sbit w 11); [exact P2|discriminate G14].
    - exists None, None. split; [reflexivity|].
      split; [unfold has in *; destruct (sbit w 11); [now contradiction G14|reflexivity]|]. split; [exact I|].
      split; [|now split]. cbn. destruct (sbit w 11); [now contradiction G14|reflexivity]. }
  destruct El as (l14 & hw14 & E14 & Gl & Pl & Gh & -> & ->).
  assert (Es : exists d t, x16 = option_map (fun d => (d, t)) d).
  { destruct x16 as [[d t]|]; [exists (Some d), t|exists None, []]; reflexivity. }
  destruct Es as (d16 & t16 & ->).
  exists (mkSampleWire (mkSample ip pid tid time addr (opt_or id1 id0) sid cpu period (option_map (group_of w) x11)
    x12 x13 hw14 l14 x15 d16 weight dsrc tx x20 pa x25 cg dp cp) x11 t16).
  cbn [sw_sample]. split; [|split].
  - f_equal. now destruct d16.
  - unfold sample_given. cbv zeta.
    cbn [sw_sample sw_values sw_stack_tail s_ip s_pid s_tid s_time s_addr s_id s_stream_id s_cpu s_period s_values
      s_callchain s_raw s_lbr_hw_index s_lbr s_regs_user s_stack_user s_weight s_data_src s_transaction
      s_regs_intr s_phys_addr s_aux s_cgroup s_data_page_size s_code_page_size].
    split; [exact G2|]. split; [exact G3|]. split; [exact G4|]. split; [exact G5|]. split; [exact G6|].
    split; [now apply id_given|]. split; [exact G8|]. split; [exact G9|]. split; [exact G10|].
    split.
    { split; [exact G11|]. split; [destruct x11; [apply P11|exact I]|]. split; [reflexivity|].
      intros E4. rewrite E4 in G11. destruct x11 as [v|]; [apply P11|now contradiction G11]. }
    split; [now split|]. split; [now split|]. split; [now split|]. split; [now split|].
    split. { unfold has in *. destruct (sbit w 13), d16; cbn in *; congruence. }
    split; [exact G17|]. split; [exact G18|]. split; [exact G19|]. split; [now split|].
    split; [exact G21|]. split; [exact G22|]. split; [exact G23|]. split; [exact G24|]. exact G25.
  - unfold l_sample. cbv zeta.
    cbn [sw_sample sw_values sw_stack_tail s_ip s_pid s_tid s_time s_addr s_id s_stream_id s_cpu s_period s_values
      s_callchain s_raw s_lbr_hw_index s_lbr s_regs_user s_stack_user s_weight s_data_src s_transaction
      s_regs_intr s_phys_addr s_aux s_cgroup s_data_page_size s_code_page_size laid].
    do 2 eexists. split; [reflexivity|]. split; [now apply twice_fits|]. split; [discriminate|].
    do 2 eexists. split; [reflexivity|]. split; [apply fits_refl|]. split; [discriminate|].
    do 2 eexists. split; [reflexivity|]. split; [apply fits_refl|]. split; [discriminate|].
    do 2 eexists. split; [reflexivity|]. split; [apply fits_refl|]. split; [discriminate|].
    do 2 eexists. split; [reflexivity|]. split; [apply fits_refl|]. split; [discriminate|].
    do 2 eexists. split; [reflexivity|]. split; [apply fits_refl|]. split; [discriminate|].
    do 2 eexists. split; [reflexivity|]. split; [now apply once_fits|]. split; [discriminate|].
    do 2 eexists. split; [reflexivity|]. split; [apply fits_refl|]. split; [discriminate|].
    do 2 eexists. split; [reflexivity|]. split; [exact F9|]. split; [discriminate|].
    do 2 eexists. split; [reflexivity|]. split; [apply fits_refl|]. split; [discriminate|].
    do 2 eexists. split; [reflexivity|]. split; [exact F11|]. split; [exact D11|].
    do 2 eexists. split; [reflexivity|]. split; [exact F12|]. split; [exact D12|].
    do 2 eexists. split; [reflexivity|]. split; [exact F13|]. split; [discriminate|].
    do 2 eexists. split; [reflexivity|]. split; [subst x14; destruct l14; exact F14|].
    split; [subst x14; destruct l14; [exact D14|discriminate]|].
    do 2 eexists. split; [reflexivity|]. split; [exact F15|]. split; [exact D15|].
    do 2 eexists. split; [reflexivity|]. split; [destruct d16; exact F16|].
    split; [destruct d16; [exact D16|discriminate]|].
    do 2 eexists. split; [reflexivity|]. split; [apply fits_refl|]. split; [discriminate|].
    do 2 eexists. split; [reflexivity|]. split; [apply fits_refl|]. split; [discriminate|].
    do 2 eexists. split; [reflexivity|]. split; [apply fits_refl|]. split; [discriminate|].
    do 2 eexists. split; [reflexivity|]. split; [exact F20|]. split; [exact D20|].
    do 2 eexists. split; [reflexivity|]. split; [apply fits_refl|]. split; [discriminate|].
    do 2 eexists. split; [reflexivity|]. split; [apply fits_refl|]. split; [discriminate|].
    do 2 eexists. split; [reflexivity|]. split; [apply fits_refl|]. split; [discriminate|].
    do 2 eexists. split; [reflexivity|]. split; [apply fits_refl|]. split; [discriminate|].
    do 2 eexists. split; [reflexivity|]. split; [exact F25|]. split; [exact D25|]. reflexivity.
Qed.

Ltac piece H b r F D := destruct H as (b & r & -> & F & D & H).
Ltac r64 := eapply Runs_bind; [apply Runs_f64; assumption|].

Lemma Runs_sample : forall x bs rest pos, sample_given w x -> bytes bs -> len bs <= lim ->
  laid (is_sample x) bs rest -> Rn (f_sample pl) bs (sw_sample x) rest pos.
Proof.
  intros [s vals tail] bs rest pos Hg B L H. unfold sample_given in Hg. unfold l_sample in H. cbv zeta in Hg, H.
  cbn [sw_sample sw_values sw_stack_tail laid] in *.
  destruct Hg as (Hip & Hpid & Htid & Htime & Haddr & Hid & Hsid & Hcpu & Hper & (Hv1 & Hv2 & Hv3 & Hk) &
    Hc & Hr & (Hb1 & Hb2 & Hb3) & Hu & Ht & Hwt & Hds & Htx & Hi & Hpa & Hcg & Hdp & Hcp & Hx).
  piece H b1 r1 F1 D1. piece H b2 r2 F2 D2. piece H b3 r3 F3 D3. piece H b4 r4 F4 D4. piece H b5 r5 F5 D5.
  piece H b6 r6 F6 D6. piece H b7 r7 F7 D7. piece H b8 r8 F8 D8. piece H b9 r9 F9 D9. piece H b10 r10 F10 D10.
  piece H b11 r11 F11 D11. piece H b12 r12 F12 D12. piece H b13 r13 F13 D13. piece H b14 r14 F14 D14.
  piece H b15 r15 F15 D15. piece H b16 r16 F16 D16. piece H b17 r17 F17 D17. piece H b18 r18 F18 D18.
  piece H b19 r19 F19 D19. piece H b20 r20 F20 D20. piece H b21 r21 F21 D21. piece H b22 r22 F22 D22.
  piece H b23 r23 F23 D23. piece H b24 r24 F24 D24. piece H b25 r25 F25 D25. subst r25. rewrite app_nil_r in *.
  apply fits_just in F2, F3, F4, F5, F6, F8, F10, F17, F18, F19, F21, F22, F23, F24.
  unfold bytes in B. rewrite !Forall_app in B.
  destruct B as (B1 & _ & _ & _ & _ & _ & _ & _ & _ & _ & B11 & B12 & B13 & B14 & B15 & B16 & _ & _ & _ & B20 &
    _ & _ & _ & _ & B25).
  rewrite !len_app in L.
  unfold f_sample. apply Runs_cfg. cbv zeta.
  unfold SF_IP, SF_TID, SF_TIME, SF_ADDR, SF_READ, SF_CALLCHAIN, SF_ID, SF_CPU, SF_PERIOD,
    SF_STREAM_ID, SF_RAW, SF_BRANCH_STACK, SF_REGS_USER, SF_STACK_USER, SF_WEIGHT, SF_DATA_SRC,
    SF_IDENTIFIER, SF_TRANSACTION, SF_REGS_INTR, SF_PHYS_ADDR, SF_AUX, SF_CGROUP,
    SF_DATA_PAGE_SIZE, SF_CODE_PAGE_SIZE.
  rewrite !(cfg_sbit env w Hw).
  replace (branch_hw_index (fe_cfg env)) with (ws_hw_index w) by (symmetry; apply Hw).
  replace (c_regs_user (fe_cfg env)) with (ws_regs_user w) by (symmetry; apply Hw).
  replace (c_regs_intr (fe_cfg env)) with (ws_regs_intr w) by (symmetry; apply Hw).
  edestruct (Runs_twice (sbit w 16) (sbit w 6) (s_id s) b1) as (y & Ey & R1); [exact Hid|exact B1|exact F1|].
  eapply Runs_bind; [exact R1|]. clear R1.
  subst b2. r64. subst b3. eapply Runs_bind; [apply Runs_f32; assumption|].
  subst b4. eapply Runs_bind; [apply Runs_f32; assumption|]. subst b5. r64. subst b6. r64.
  eapply Runs_bind; [eapply Runs_once; [exact Hid|exact F7]|]. subst b8. r64.
  eapply Runs_bind; [apply Runs_cpu; [exact Hcpu|exact F9]|]. subst b10. r64.
  eapply Runs_bind.
  { apply (proj2 (part_if _ _ _ _ _ _ _ _ _ _ (part_values pl Hpl env lim Hlim w Hw)) vals);
      [|exact B11|lia|exact F11|exact D11].
    split; [exact Hv1|]. destruct vals as [v|]; [|exact I]. split; [exact Hv2|].
    apply Hk. destruct (sbit w 4); [reflexivity|discriminate Hv1]. }
  eapply Runs_bind.
  { apply (proj2 (part_if _ _ _ _ _ _ _ _ _ _ (part_callchain pl Hpl env lim Hlim)) (s_callchain s));
      [exact Hc|exact B12|lia|exact F12|exact D12]. }
  eapply Runs_bind.
  { apply (proj2 (part_if _ _ _ _ _ _ _ _ _ _ (part_raw pl Hpl env lim Hlim)) (s_raw s));
      [exact Hr|exact B13|lia|exact F13|now destruct (s_raw s)]. }
  eapply Runs_bind.
  { apply (proj2 (part_if _ _ _ _ _ _ _ _ _ _ (part_lbr pl Hpl env lim Hlim (ws_hw_index w)))
      (match s_lbr s with Some l => Some (l, s_lbr_hw_index s) | None => None end)).
    - destruct (s_lbr s) as [l|]; cbn [opt_all fst snd] in *.
      + unfold has in *. destruct (sbit w 11); [|discriminate Hb1]. split; [discriminate|]. now split.
      + unfold has in *. destruct (sbit w 11); [now contradiction Hb1|]. now split.
    - exact B14.
    - lia.
    - destruct (s_lbr s); exact F14.
    - destruct (s_lbr s); [exact D14|discriminate]. }
  eapply Runs_bind.
  { apply (proj2 (part_if _ _ _ _ _ _ _ _ _ _ (part_regs pl env lim Hlim _ Hru)) (s_regs_user s));
      [exact Hu|exact B15|lia|exact F15|exact D15]. }
  eapply Runs_bind.
  { apply (proj2 (part_if _ _ _ _ _ _ _ _ _ _ (part_stack pl Hpl env lim Hlim))
      (option_map (fun d => (d, tail)) (s_stack_user s))).
    - unfold has in *. destruct (sbit w 13), (s_stack_user s); cbn; split; try exact I; congruence.
    - exact B16.
    - lia.
    - destruct (s_stack_user s); exact F16.
    - destruct (s_stack_user s); [exact D16|discriminate]. }
  subst b17. r64. subst b18. r64. subst b19. r64.
  eapply Runs_bind.
  { apply (proj2 (part_if _ _ _ _ _ _ _ _ _ _ (part_regs pl env lim Hlim _ Hri)) (s_regs_intr s));
      [exact Hi|exact B20|lia|exact F20|exact D20]. }
  subst b21. r64. subst b22. r64. subst b23. r64. subst b24. r64.
  eapply Runs_last.
  { apply (proj2 (part_if _ _ _ _ _ _ _ _ _ _ (part_aux pl Hpl env lim Hlim)) (s_aux s));
      [split; [exact Hx|now destruct (s_aux s)]|exact B25|lia|exact F25|exact D25]. }
  apply Runs_ret. rewrite Ey, !id_map, <- Hv3. clear - Hb1 Hb3 Ht. destruct s; cbn in *. f_equal.
  - destruct s_lbr as [l|]; [reflexivity|]. unfold has in Hb1. destruct (sbit w 11); [now contradiction Hb1|].
    destruct s_lbr_hw_index; [destruct Hb3; discriminate|reflexivity].
  - now destruct s_lbr.
  - now destruct s_stack_user.
Qed.
End Whole.
