(** Records accept exactly the layouts of Accept.v. *)
From Coq Require Import NArith List Bool Lia.
From Verif Require Import Base BaseFacts Types Platform Config Bits ConfFacts Records Sample
  Record Flat Wire Codec Roundtrip RtSample RtRecord Accept AcceptFacts AcceptParts AcceptSample.
Import ListNotations.
Open Scope N_scope.

Section Body.
Context (pl : platform) (Hpl : pl_ok pl) (c : config) (m : N) (lim : N) (Hlim : lim <= usize_max pl).
Context (w : settings) (Hw : configured c w) (Hm : m < 2 ^ 16).
Context (Hru : ws_regs_user w < 2 ^ 64) (Hri : ws_regs_intr w < 2 ^ 64).

Let env := mkEnv (with_misc c m) eof_error.
Let o := order_of pl (c_endian c).
Notation Sd := (Snd env lim).
Notation Rn := (Runs env).
Notation lay := (l_body (pl_bits pl) (pl_host pl) o w).

(** [bs] is the body of a record of type [t], read as [v]; [rest] is what follows. *)
Definition is_body (t : N) (v : body list) (bs rest : list N) : Prop :=
  exists b, w_type b = t /\ expected b = v /\ body_given w m b /\ laid (lay b) bs rest /\
  (takes_all b -> rest = []).

Lemma laid_one : forall q bs rest, fits q bs -> laid [(q, false)] bs rest.
Proof.
  intros q bs rest H. cbn [laid]. exists bs, []. rewrite app_nil_r. split; [reflexivity|]. split; [exact H|].
  split; [discriminate|reflexivity].
Qed.

Lemma laid_one_inv : forall q d bs rest, laid [(q, d)] bs rest -> fits q bs /\ (d = true -> rest <> []).
Proof.
  intros q d bs rest (b1 & b2 & -> & Hf & Hd & H). cbn [laid] in H. subst b2. rewrite app_nil_r. now split.
Qed.

Ltac g32 x b := eapply Snd_bind; [apply Snd_u32|]; intros x b; cbv beta.
Ltac g64 x b := eapply Snd_bind; [apply Snd_u64|]; intros x b; cbv beta.
Ltac g16 x b := eapply Snd_bind; [apply Snd_u16|]; intros x b; cbv beta.
Ltac gstr x b := eapply Snd_bind; [apply Snd_string|]; intros x b; cbv beta.
Ltac give X := exists X; split; [reflexivity|]; split; [reflexivity|].
Ltac flat1 := apply laid_one; cbn [w_body]; rewrite ?app_nil_r; apply fits_just; reflexivity.

Lemma Snd_wrap : forall A B (f : F A) (g : A -> B) R, Sd f (fun a bs rest => R (g a) bs rest) ->
  Sd (r <~ f ;; fret (g r)) R.
Proof.
  intros A B f g R H. eapply Snd_bind; [exact H|]. intros a b1. apply Snd_ret. intros rest Hr. cbn [app] in Hr.
  now rewrite app_nil_r.
Qed.

(** The fields before a string, in the order they come. *)
Lemma Snd_body : forall t, t < 2 ^ 32 -> Sd (f_body pl t) (is_body t).
Proof.
  assert (Hw1 : configured (fe_cfg env) w) by (apply configured_misc; exact Hw).
  intros t Ht. unfold f_body.
  destruct (N.eqb_spec t 1) as [->|E1].
  { (* MMAP *) apply Snd_wrap. unfold f_mmap. g32 pid b1. g32 tid b2. g64 addr b3. g64 n b4. g64 off b5. gstr s b6.
    apply Snd_ret. intros rest (Hr & k & -> & Hs) [H5 ->] [H4 ->] [H3 ->] [H2 ->] [H1 ->].
    give (WMmap (mkMmap pid tid addr n off s) k). split; [cbn; auto 8|]. split; [flat1|auto]. }
  destruct (N.eqb_spec t 2) as [->|E2].
  { (* LOST *) apply Snd_wrap. unfold f_lost. g64 a b1. g64 b b2.
    apply Snd_ret. intros rest [H2 ->] [H1 ->].
    give (WLost (mkLost a b)). split; [now split|]. split; [flat1|contradiction]. }
  destruct (N.eqb_spec t 3) as [->|E3].
  { (* COMM *) apply Snd_wrap. unfold f_comm. g32 pid b1. g32 tid b2. gstr s b3.
    apply Snd_ret. intros rest (Hr & k & -> & Hs) [H2 ->] [H1 ->].
    give (WComm (mkComm pid tid s) k). split; [cbn; auto|]. split; [flat1|auto]. }
  destruct (N.eqb_spec t 4) as [->|E4].
  { (* EXIT *) apply Snd_wrap. unfold f_exit. g32 a b1. g32 b b2. g32 d b3. g32 e b4. g64 f b5.
    apply Snd_ret. intros rest [H5 ->] [H4 ->] [H3 ->] [H2 ->] [H1 ->].
    give (WExit (mkExit a b d e f)). split; [cbn; auto|]. split; [flat1|contradiction]. }
  destruct (N.eqb_spec t 5) as [->|E5].
  { (* THROTTLE *) apply Snd_wrap. unfold f_throttle. g64 a b1. g64 b b2. g64 d b3.
    apply Snd_ret. intros rest [H3 ->] [H2 ->] [H1 ->].
    give (WThrottle (mkThrottle a b d)). split; [cbn; auto|]. split; [flat1|contradiction]. }
  destruct (N.eqb_spec t 6) as [->|E6].
  { (* UNTHROTTLE *) apply Snd_wrap. unfold f_throttle. g64 a b1. g64 b b2. g64 d b3.
    apply Snd_ret. intros rest [H3 ->] [H2 ->] [H1 ->].
    give (WUnthrottle (mkThrottle a b d)). split; [cbn; auto|]. split; [flat1|contradiction]. }
  destruct (N.eqb_spec t 7) as [->|E7].
  { (* FORK *) apply Snd_wrap. unfold f_exit. g32 a b1. g32 b b2. g32 d b3. g32 e b4. g64 f b5.
    apply Snd_ret. intros rest [H5 ->] [H4 ->] [H3 ->] [H2 ->] [H1 ->].
    give (WFork (mkExit a b d e f)). split; [cbn; auto|]. split; [flat1|contradiction]. }
  destruct (N.eqb_spec t 8) as [->|E8].
  { (* READ *) apply Snd_wrap. unfold f_read. g32 a b1. g32 b b2.
    eapply Snd_bind; [apply (proj1 (part_read_value pl env lim w Hw1))|]. intros v b3.
    apply Snd_ret. intros rest (v' & -> & (G1 & G2 & G3) & F3 & _) [H2 ->] [H1 ->]. apply fits_just in F3. subst b3.
    give (WRead (mkRead a b v')). split; [cbn [body_given rd_pid rd_tid rd_values]; auto|]. split; [flat1|contradiction]. }
  destruct (N.eqb_spec t 9) as [->|E9].
  { (* SAMPLE *) apply Snd_wrap.
    eapply Snd_conv; [apply (Snd_sample pl Hpl env lim Hlim w Hw1 Hru Hri)|]. intros s bs rest (x & <- & Hg & Hl).
    give (WSample x). split; [exact Hg|]. split; [exact Hl|contradiction]. }
  destruct (N.eqb_spec t 10) as [->|E10].
  { (* MMAP2 *) apply Snd_wrap. unfold f_mmap2. g32 pid b1. g32 tid b2. g64 addr b3. g64 n b4. g64 off b5.
    eapply (Snd_bind _ _ _ _ _ _ (fun d bs _ => detail_given m d /\ fits (l_detail o d) bs)).
    { unfold f_mmap_detail. apply Snd_cfg. unfold MISC_MMAP_BUILD_ID, env.
      rewrite (misc_bit c m Hm). destruct (N.testbit m 14) eqn:Eb.
      - eapply Snd_bind; [apply Snd_u8|]; intros k d1; cbv beta. eapply Snd_bind; [apply Snd_u8|]; intros x2 d2; cbv beta.
        g16 x3 d3. eapply Snd_bind; [apply Snd_take|]; intros b d4; cbv beta.
        destruct (N.ltb_spec 20 k) as [Hk|Hk]; [apply Snd_fail|]. apply Snd_ret.
        intros rest (-> & H4 & _) (_ & ->) (_ & ->) (Hk1 & ->). split; [now split|].
        rewrite app_nil_r. cbn [l_detail]. apply fits_app_intro; [apply fits_refl|].
        rewrite app_assoc. apply fits_app_intro; [|apply fits_refl]. apply fits_any. now rewrite len_app, w8_len, w16_len.
      - g32 x1 d1. g32 x2 d2. g64 x3 d3. g64 x4 d4. apply Snd_ret.
        intros rest (H4 & ->) (H3 & ->) (H2 & ->) (H1 & ->). split; [cbn; auto|]. rewrite app_nil_r. apply fits_refl. }
    intros d b6. cbv beta. g32 prot b7. g32 flags b8. gstr s b9. apply Snd_ret.
    intros rest (Hr & k & -> & Hs) [H8 ->] [H7 ->] [G6 F6] [H5 ->] [H4 ->] [H3 ->] [H2 ->] [H1 ->].
    give (WMmap2 (mkMmap2 pid tid addr n off d prot flags s) k). split; [cbn [body_given m2_pid m2_tid m2_addr m2_len m2_pgoff m2_detail m2_prot m2_flags m2_filename]; auto 10|].
    split; [|auto]. cbn [l_body laid m2_pid m2_tid m2_addr m2_len m2_pgoff m2_detail m2_prot m2_flags m2_filename].
    exists (w32 o pid ++ w32 o tid ++ w64 o addr ++ w64 o n ++ w64 o off), (b6 ++ w32 o prot ++ w32 o flags ++ w_str s k).
    split; [rewrite app_nil_r, <- !app_assoc; reflexivity|]. split; [apply fits_refl|]. split; [discriminate|].
    do 2 eexists. split; [reflexivity|]. split; [exact F6|]. split; [discriminate|].
    eexists _, []. split; [symmetry; apply app_nil_r|]. split; [apply fits_refl|]. split; [discriminate|reflexivity]. }
  destruct (N.eqb_spec t 11) as [->|E11].
  { (* AUX *) apply Snd_wrap. unfold f_aux. g64 a b1. g64 b b2. g64 d b3.
    apply Snd_ret. intros rest [H3 ->] [H2 ->] [H1 ->].
    give (WAux (mkAux a b d)). split; [cbn; auto|]. split; [flat1|contradiction]. }
  destruct (N.eqb_spec t 12) as [->|E12].
  { (* ITRACE_START *) apply Snd_wrap. unfold f_itrace_start. g32 a b1. g32 b b2.
    apply Snd_ret. intros rest [H2 ->] [H1 ->].
    give (WItraceStart (mkItraceStart a b)). split; [now split|]. split; [flat1|contradiction]. }
  destruct (N.eqb_spec t 13) as [->|E13].
  { (* LOST_SAMPLES *) apply Snd_wrap. unfold f_lost_samples. g64 a b1.
    apply Snd_ret. intros rest [H1 ->].
    give (WLostSamples (mkLostSamples a)). split; [exact H1|]. split; [flat1|contradiction]. }
  destruct (N.eqb_spec t 15) as [->|E15].
  { (* SWITCH_CPU_WIDE *) apply Snd_wrap. unfold f_switch_cpu_wide. g32 a b1. g32 b b2. apply Snd_cfg.
    unfold MISC_SWITCH_OUT, env. rewrite (misc_bit c m Hm).
    apply Snd_ret. intros rest [H2 ->] [H1 ->]. destruct (N.testbit m 13) eqn:Em.
    - give (WSwitchCpuWide (SwOut a b)). split; [cbn; auto|]. split; [flat1|contradiction].
    - give (WSwitchCpuWide (SwIn a b)). split; [cbn; auto|]. split; [flat1|contradiction]. }
  destruct (N.eqb_spec t 16) as [->|E16].
  { (* NAMESPACES *) apply Snd_wrap. unfold f_namespaces. g32 a b1. g32 b b2.
    eapply Snd_bind; [apply (Snd_count pl Hpl)|]. intros n b3. cbv beta.
    eapply Snd_bind; [apply (Snd_array pl env lim ns_entry fl_ns (w_ns o) (fun e => ns_dev e < 2 ^ 64 /\ ns_inode e < 2 ^ 64));
      [reflexivity|exact (dec_ns_inv pl env)]|]. intros l b4. cbv beta.
    apply Snd_ret. intros rest (-> & Hl & Hok & Hne) Hc [H2 ->] [H1 ->]. cbn [app] in Hne.
    give (WNamespaces (mkNamespaces a b l)). split; [cbn; auto|]. split; [|contradiction].
    cbn [l_body laid nss_pid nss_tid nss_entries]. eexists _, []. split; [symmetry; apply app_nil_r|].
    rewrite N.eqb_eq, Hl. split; [|split; [exact Hne|reflexivity]].
    rewrite app_nil_r, (app_assoc (w32 _ a)). apply fits_app_intro; [apply fits_refl|].
    apply fits_app_intro; [exact Hc|apply fits_refl]. }
  destruct (N.eqb_spec t 17) as [->|E17].
  { (* KSYMBOL *) apply Snd_wrap. unfold f_ksymbol. g64 a b1. g32 b b2. g16 d b3. g16 e b4. gstr s b5.
    apply Snd_ret. intros rest (Hr & k & -> & Hs) [H4 ->] [H3 ->] [H2 ->] [H1 ->].
    give (WKsymbol (mkKsymbol a b d e s) k). split; [cbn; auto 6|]. split; [flat1|auto]. }
  destruct (N.eqb_spec t 18) as [->|E18].
  { (* BPF_EVENT *) apply Snd_wrap. unfold f_bpf_event. g16 a b1. g16 b b2. g32 d b3.
    eapply Snd_bind; [apply Snd_take|]; intros tg b4; cbv beta.
    apply Snd_ret. intros rest (-> & H4 & _) [H3 ->] [H2 ->] [H1 ->].
    give (WBpfEvent (mkBpf a b d b4)). split; [cbn [body_given bpf_ty bpf_flags bpf_id bpf_tag]; auto|]. split; [flat1|contradiction]. }
  destruct (N.eqb_spec t 19) as [->|E19].
  { (* CGROUP *) apply Snd_wrap. unfold f_cgroup. g64 a b1. gstr s b2.
    apply Snd_ret. intros rest (Hr & k & -> & Hs) [H1 ->].
    give (WCgroup (mkCgroup a s) k). split; [now split|]. split; [flat1|auto]. }
  destruct (N.eqb_spec t 20) as [->|E20].
  { (* TEXT_POKE *) apply Snd_wrap. unfold f_text_poke. g64 a b1. g16 ol b2. g16 nl b3.
    rewrite round_up_pad. eapply Snd_bind; [apply Snd_take|]; intros x b4; cbv beta.
    apply Snd_event. apply Snd_ret. intros rest (-> & H4 & _) [H3 ->] [H2 ->] [H1 ->].
    assert (Eo : len (take ol b4) = ol) by (rewrite len_take; lia).
    assert (En : len (take nl (drop ol b4)) = nl) by (rewrite len_take, len_drop; lia).
    give (WTextPoke (mkTextPoke a (take ol b4) (take nl (drop ol b4)))).
    split; [cbn [body_given tp_addr tp_old tp_new]; rewrite Eo, En; auto|]. split; [|contradiction].
    apply laid_one. cbn [tp_addr tp_old tp_new]. rewrite Eo, En, app_nil_r.
    assert (Es : b4 = (take ol b4 ++ take nl (drop ol b4)) ++ drop nl (drop ol b4))
      by now rewrite <- app_assoc, !take_drop.
    rewrite Es at 3. rewrite !app_assoc. apply fits_app_intro; [rewrite <- !app_assoc; apply fits_refl|].
    apply fits_any. replace (4 + ol + nl) with (4 + (ol + nl)) by lia. rewrite !len_drop, H4. lia. }
  destruct (N.eqb_spec t 21) as [->|E21].
  { (* AUX_OUTPUT_HW_ID *) apply Snd_wrap. unfold f_aux_output_hw_id. g64 a b1.
    apply Snd_ret. intros rest [H1 ->].
    give (WAuxOutputHwId (mkHwId a)). split; [exact H1|]. split; [flat1|contradiction]. }
  apply Snd_wrap. eapply Snd_conv; [apply Snd_rest|]. intros d bs rest (-> & Hne & ->).
  give (WOther t bs). split; [|split; [apply laid_one; apply fits_refl|reflexivity]].
  cbn. split; [lia|]. now split.
Qed.

Ltac r32 := eapply Runs_bind; [now apply Runs_u32|].
Ltac r64 := eapply Runs_bind; [now apply Runs_u64|].
Ltac r16 := eapply Runs_bind; [now apply Runs_u16|].
Ltac wrap := eapply Runs_last; [|now apply Runs_ret].
Ltac l64 := eapply Runs_last; [now apply Runs_u64|now apply Runs_ret].
Ltac l32 := eapply Runs_last; [now apply Runs_u32|now apply Runs_ret].
Ltac lstr := eapply Runs_last; [apply Runs_string; [reflexivity|assumption]|now apply Runs_ret].

Lemma f_body_rest : forall t, (t = 0 \/ t = 14 \/ 21 < t) -> f_body pl t = (r <~ f_rest ;; fret (BUnknown r)).
Proof.
  intros t [->|[->|Ht]]; [reflexivity|reflexivity|]. unfold f_body.
  repeat match goal with |- context [t =? ?k] => replace (t =? k) with false by (symmetry; apply N.eqb_neq; lia) end.
  reflexivity.
Qed.

Lemma Runs_body : forall b bs rest pos, body_given w m b -> bytes bs -> len bs <= lim ->
  laid (lay b) bs rest -> (takes_all b -> rest = []) -> Rn (f_body pl (w_type b)) bs (expected b) rest pos.
Proof.
  assert (Hw1 : configured (fe_cfg env) w) by (apply configured_misc; exact Hw).
  intros b bs rest pos Hg B L Hl Hall.
  destruct b as [r k|r|r k|r|r|r|r|r|x|r k|r|r|r| |r|r|r k|r|r k|r|r|t d];
    try exact (False_ind _ Hg);
    try (cbn [w_type expected]; unfold f_body; cbn [N.eqb Pos.eqb]; wrap);
    try (apply laid_one_inv in Hl as [Hf Hd]; try apply fits_just in Hf);
    cbn [takes_all body_given wbody_ok w_body] in *.
  - rewrite (Hall I). subst bs. destruct Hg as (H1 & H2 & H3 & H4 & H5 & Hs), r; cbn in *.
    unfold f_mmap. r32. r32. r64. r64. r64. lstr.
  - subst bs. destruct Hg as (H1 & H2), r; cbn in *. unfold f_lost. r64. l64.
  - rewrite (Hall I). subst bs. destruct Hg as (H1 & H2 & Hs), r; cbn in *. unfold f_comm. r32. r32. lstr.
  - subst bs. destruct Hg as (H1 & H2 & H3 & H4 & H5), r; cbn in *. unfold f_exit. r32. r32. r32. r32. l64.
  - subst bs. destruct Hg as (H1 & H2 & H3), r; cbn in *. unfold f_throttle. r64. r64. l64.
  - subst bs. destruct Hg as (H1 & H2 & H3), r; cbn in *. unfold f_throttle. r64. r64. l64.
  - subst bs. destruct Hg as (H1 & H2 & H3 & H4 & H5), r; cbn in *. unfold f_exit. r32. r32. r32. r32. l64.
  - subst bs. destruct Hg as (H1 & H2 & H3 & H4 & H5), r as [pid tid v]; cbn [rd_pid rd_tid rd_values] in *.
    unfold f_read. r32. r32. eapply Runs_last; [|now apply Runs_ret].
    apply (proj2 (part_read_value pl env lim w Hw1)); [auto| | |apply fits_refl|discriminate].
    + unfold bytes in B. rewrite !Forall_app in B. apply B.
    + rewrite !len_app in L. lia.
  - apply (Runs_sample pl Hpl env lim Hlim w Hw1 Hru Hri); assumption.
  - rewrite (Hall I). destruct Hg as (H1 & H2 & H3 & H4 & H5 & H6 & H7 & H8 & Hs), r as [pid tid addr n off d prot flags s].
    cbn [l_body laid m2_pid m2_tid m2_addr m2_len m2_pgoff m2_detail m2_prot m2_flags m2_filename] in *.
    destruct Hl as (b1 & r1 & -> & F1 & _ & b2 & r2 & -> & F2 & _ & b3 & r3 & -> & F3 & _ & ->).
    apply fits_just in F1, F3. subst b1 b3. rewrite app_nil_r, <- !app_assoc.
    unfold f_mmap2. r32. r32. r64. r64. r64. eapply Runs_bind with (a := d).
    { unfold f_mmap_detail. apply Runs_cfg. unfold MISC_MMAP_BUILD_ID, env. rewrite (misc_bit c m Hm).
      destruct d as [maj min ino gen|bid k0]; cbn [detail_given l_detail] in H6, F2.
      - destruct H6 as (-> & G1 & G2 & G3 & G4). apply fits_just in F2. subst b2. r32. r32. r64. l64.
      - destruct H6 as (-> & G1 & G2). apply fits_app in F2 as (c1 & c2 & -> & F2 & F3).
        apply fits_app in F3 as (c3 & c4 & -> & F3 & F4). apply fits_just in F2, F4. apply fits_any in F3. subst c1 c4.
        eapply Runs_bind; [apply Runs_u8; lia|].
        rewrite <- (take_drop 1 c3), <- app_assoc.
        eapply Runs_bind; [apply (Runs_any pl env 1); [rewrite len_take; lia|lia]|].
        eapply Runs_bind; [apply (Runs_any pl env 2); [rewrite len_drop; lia|lia]|].
        eapply Runs_last; [apply Runs_take; [exact G1|]|].
        + apply app_nonnil. intros ->. discriminate.
        + cbv beta. replace (20 <? k0) with false by (symmetry; apply N.ltb_ge; lia). now apply Runs_ret. }
    r32. r32. lstr.
  - subst bs. destruct Hg as (H1 & H2 & H3), r; cbn in *. unfold f_aux. r64. r64. l64.
  - subst bs. destruct Hg as (H1 & H2), r; cbn in *. unfold f_itrace_start. r32. l32.
  - subst bs. destruct r; cbn in *. unfold f_lost_samples. l64.
  - subst bs. destruct Hg as (H1 & H2 & H3). unfold f_switch_cpu_wide.
    destruct r; cbn [sw_pid sw_tid] in *; r32; (eapply Runs_last; [now apply Runs_u32|]); cbv beta; apply Runs_cfg;
    unfold MISC_SWITCH_OUT, env; rewrite (misc_bit c m Hm), <- H3; now apply Runs_ret.
  - destruct Hg as (H1 & H2 & H3), r as [pid tid l]; cbn [nss_pid nss_tid nss_entries] in *.
    apply fits_app in Hf as (b1 & b2 & -> & F1 & Hf). apply fits_app in Hf as (b3 & b4 & -> & F3 & F4).
    apply fits_just in F1, F4. subst b1 b4. unfold bytes in B. rewrite !Forall_app in B. destruct B as (_ & B3 & _).
    rewrite !len_app in L. rewrite (w_list_len _ _ 16) in L by apply w_ns_len.
    edestruct (Runs_count pl Hpl env (len l) b3) as (v & E & R); [exact B3|lia|exact F3|].
    rewrite <- app_assoc. unfold f_namespaces. r32. r32. eapply Runs_bind; [exact R|]. cbv beta. rewrite E.
    eapply Runs_last; [|now apply Runs_ret].
    apply (Runs_array pl env lim Hlim ns_entry fl_ns (w_ns o)); [reflexivity|apply w_ns_len| | |].
    + eapply Forall_impl; [|exact H3]. intros e [Ha Hb]. now apply dec_ns.
    + rewrite (w_list_len _ _ 16) by apply w_ns_len. lia.
    + intros E0. apply Hd. now apply N.eqb_eq.
  - rewrite (Hall I). subst bs. destruct Hg as (H1 & H2 & H3 & H4 & Hs), r; cbn in *. unfold f_ksymbol.
    r64. r32. r16. r16. lstr.
  - subst bs. destruct Hg as (H1 & H2 & H3 & H4), r; cbn in *. unfold f_bpf_event. r16. r16. r32.
    eapply Runs_last; [apply Runs_take; [exact H4|]|now apply Runs_ret].
    apply app_nonnil. intros ->. discriminate.
  - rewrite (Hall I). subst bs. destruct Hg as (H1 & Hs), r; cbn in *. unfold f_cgroup. r64. lstr.
  - apply fits_app in Hf as (b1 & pad & -> & F1 & F2). apply fits_just in F1. apply fits_any in F2. subst b1.
    destruct Hg as (H1 & H2 & H3), r as [a old new]; cbn [tp_addr tp_old tp_new] in *. rewrite <- !app_assoc.
    eapply (Rt_runs _ _ 0 true). apply Rt_text_poke_pad; auto.
  - subst bs. destruct r; cbn in *. unfold f_aux_output_hw_id. l64.
  - cbn [w_type expected]. subst bs. destruct Hg as (H1 & H2 & H3). rewrite f_body_rest by exact H1.
    rewrite (Hall I). wrap. eapply (Rt_runs _ _ 0 true). now apply Rt_rest.
Qed.
End Body.

(** What is known of the first result may be used for the second parser. *)
Lemma Snd_bindP : forall env lim B C (m : F B) (k : B -> F C) (R1 : B -> list N -> list N -> Prop) (P : B -> Prop)
  (R : C -> list N -> list N -> Prop),
  Snd env lim m R1 -> (forall a bs rest, R1 a bs rest -> P a) ->
  (forall a bs1, P a -> Snd env lim (k a) (fun b bs2 rest => R1 a bs1 (bs2 ++ rest) -> R b (bs1 ++ bs2) rest)) ->
  Snd env lim (fbind m k) R.
Proof.
  intros env lim B C m k R1 P R Hm HP Hk l pos b l' p' ev Hb Hl E. unfold fbind in E.
  destruct (m env l pos) as [a l1 p1 ev1|] eqn:E1; [|discriminate].
  destruct (k a env l1 p1) as [c l2 p2 ev2|] eqn:E2; [|discriminate].
  injection E as -> -> -> <-.
  destruct (Hm _ _ _ _ _ _ Hb Hl E1) as (bs1 & -> & -> & H1).
  apply Forall_app in Hb. rewrite len_app in Hl.
  destruct (Hk a bs1 (HP _ _ _ H1) l1 _ _ _ _ _ (proj2 Hb) ltac:(lia) E2) as (bs2 & -> & -> & H2).
  exists (bs1 ++ bs2). rewrite app_assoc, len_app. split; [reflexivity|]. split; [lia|]. now apply H2.
Qed.

(** Sub-parsers. *)
Lemma Snd_split : forall env lim n, Snd env lim (f_split n) (fun st bs rest => fst st = bs /\ len bs = n /\ bytes bs).
Proof.
  intros env lim n l pos st l' p' ev B L E. unfold f_split in E. destruct (N.eqb_spec n 0) as [->|Hn].
  - injection E as <- <- <- _. exists []. rewrite len_nil, N.add_0_r. repeat split. constructor.
  - destruct (f_take n env l pos) as [d l1 p1 ev1|] eqn:E1; [|discriminate]. injection E as <- <- <- _.
    destruct (Snd_take env lim n _ _ _ _ _ _ B L E1) as (bs & -> & -> & -> & Hl & _). exists bs.
    apply Forall_app in B as [B _]. repeat split; assumption.
Qed.

Lemma Snd_sub : forall env lim lim' B (f : F B) cfg st R, Snd (mkEnv cfg eof_error) lim' f R ->
  Snd env lim (f_sub f cfg st) (fun b bs _ => bs = [] /\ (bytes (fst st) -> len (fst st) <= lim' ->
    exists b1 unread, fst st = b1 ++ unread /\ R b b1 unread)).
Proof.
  intros env lim lim' B f cfg [d p0] R Hf l pos b l' p' ev _ _ E. unfold f_sub in E. cbn [fst snd] in *.
  destruct (f (mkEnv cfg eof_error) d p0) as [x l1 p1 ev1|] eqn:E1; [|discriminate]. injection E as <- <- <- _.
  exists []. rewrite len_nil, N.add_0_r. split; [reflexivity|]. split; [reflexivity|]. split; [reflexivity|].
  intros Bd Ld. destruct (Hf _ _ _ _ _ _ Bd Ld E1) as (bs & -> & _ & HR). now exists bs, l1.
Qed.

Lemma Runs_sub : forall env B (f : F B) cfg d p0 bs unread b rest pos,
  d = bs ++ unread -> Runs (mkEnv cfg eof_error) f bs b unread p0 ->
  Runs env (f_sub f cfg (d, p0)) [] b rest pos.
Proof.
  intros env B f cfg d p0 bs unread b rest pos -> (ev & E). exists ev. unfold f_sub. cbn [fst snd]. rewrite E.
  cbn [app]. now rewrite len_nil, N.add_0_r.
Qed.

Lemma Runs_split : forall env d rest pos n, n = len d -> Runs env (f_split n) d (d, pos) rest pos.
Proof. intros. eapply (Rt_runs _ _ 0 true). now apply Rt_split. Qed.

Section Record.
Context (pl : platform) (Hpl : pl_ok pl) (env : fenv) (lim : N).
Context (w : settings) (Hw : configured (fe_cfg env) w).
Context (Hru : ws_regs_user w < 2 ^ 64) (Hri : ws_regs_intr w < 2 ^ 64).

Let o := order_of pl (c_endian (fe_cfg env)).
Notation record := (is_record (pl_bits pl) (pl_host pl) o w).

(** What follows the header. *)
Definition is_payload (m : N) (si : sample_id) (b : wbody) (bs : list N) : Prop :=
  exists body unread tail, bs = body ++ unread ++ tail /\
    body_given w m b /\ laid (l_body (pl_bits pl) (pl_host pl) o w b) body unread /\ (takes_all b -> unread = []) /\
    (if ends_in_id b then sample_id_ok w si /\ fits (l_sample_id o w si) tail
     else si = sample_id_default /\ tail = []).

Lemma is_record_iff : forall m si b bs, record m si b bs <->
  exists pay, bs = w_header o (w_type b) m (8 + len pay) ++ pay /\ 8 + len pay < 2 ^ 16 /\ m < 2 ^ 16 /\
    is_payload m si b pay.
Proof.
  intros m si b bs. unfold is_record, is_payload. split.
  - intros (body & unread & tail & H1 & H2 & H3 & H4). exists (body ++ unread ++ tail).
    split; [exact H1|]. split; [exact H2|]. split; [exact H3|]. exists body, unread, tail. now split.
  - intros (pay & H1 & H2 & H3 & body & unread & tail & -> & H4). exists body, unread, tail.
    cbv zeta. now repeat (split; [assumption|]).
Qed.

Lemma ends_type : forall m b, body_given w m b -> ends_in_id b = negb ((w_type b =? 1) || (w_type b =? 9)).
Proof.
  intros m b H. destruct b; try reflexivity. cbn [w_type ends_in_id]. destruct H as (H & _).
  replace (t =? 1) with false by (symmetry; apply N.eqb_neq; lia).
  now replace (t =? 9) with false by (symmetry; apply N.eqb_neq; lia).
Qed.

Lemma given_type : forall m b, body_given w m b -> w_type b < 2 ^ 32.
Proof. intros m b H. destruct b; try reflexivity. apply H. Qed.

Lemma Snd_metadata : forall h, h_size h < 2 ^ 16 ->
  Snd env lim (f_metadata_with_header pl h) (fun r bs _ => 8 <= h_size h /\ len bs = h_size h - 8 /\ bytes bs /\
    exists tail si, bs = fst (fst r) ++ tail /\ snd r = mkMeta (h_type h) (h_misc h) si /\
    (if negb ((h_type h =? 1) || (h_type h =? 9)) then sample_id_ok w si /\ fits (l_sample_id o w si) tail
     else si = sample_id_default /\ tail = [])).
Proof.
  intros h Hs. unfold f_metadata_with_header. destruct (N.ltb_spec (h_size h) 8) as [|H8]; [apply Snd_fail|].
  eapply Snd_bind; [apply Snd_split|]. intros st b1. cbv beta.
  destruct ((h_type h =? 1) || (h_type h =? 9)); cbn [negb].
  - apply Snd_ret. intros rest (E & Hl & B). rewrite app_nil_r. split; [exact H8|]. split; [exact Hl|]. split; [exact B|].
    exists [], sample_id_default. cbn [fst snd]. rewrite app_nil_r, E. auto.
  - apply Snd_cfg. destruct (h_size h - 8 <? estimate_len (fe_cfg env)); [apply Snd_fail|].
    eapply Snd_bind.
    { apply (Snd_sub env lim 65535). eapply Snd_bind; [apply Snd_split|]. intros b b2. cbv beta.
      eapply Snd_bind; [apply (Snd_sample_id pl (mkEnv (fe_cfg env) eof_error) 65535 w Hw)|]. intros si b3.
      apply Snd_ret. intros rest H3 H2.
      refine (_ : (fun (x : (list N * N) * sample_id) bs rest => sample_id_ok w (snd x) /\
        exists tail, bs = fst (fst x) ++ tail /\ fits (l_sample_id o w (snd x)) tail /\
        len (fst (fst x)) = h_size h - 8 - estimate_len (fe_cfg env)) (b, si) (b2 ++ b3 ++ []) rest).
      cbn [fst snd]. destruct H2 as (-> & Hl & _), H3 as [G F]. split; [exact G|]. exists b3. now rewrite app_nil_r. }
    intros r b2. cbv beta. apply Snd_ret. intros rest (-> & Hr) (E & Hl & B). rewrite !app_nil_r.
    split; [exact H8|]. split; [exact Hl|]. split; [exact B|]. cbn [fst snd].
    rewrite E in Hr. destruct (Hr B) as (x1 & un & Ex & Gsi & tail & -> & Ft & Hb).
    { rewrite Hl. change (2 ^ 16) with 65536 in Hs. lia. }
    exists tail, (snd r). rewrite <- app_assoc in Ex.
    assert (Hun : un = []).
    { pose proof (l_sample_id_len pl env w Hw _ _ Ft) as Hlt. apply (f_equal len) in Ex.
      rewrite !len_app in Ex. apply len_0. lia. }
    subst un. rewrite app_nil_r in Ex. auto.
Qed.

Lemma Snd_record_with_header : forall h, h_type h < 2 ^ 32 -> h_misc h < 2 ^ 16 -> h_size h < 2 ^ 16 ->
  Snd env lim (f_record_with_header pl h) (fun r bs _ => h_size h = 8 + len bs /\
    exists b si, fst r = expected b /\ snd r = mkMeta (h_type h) (h_misc h) si /\ w_type b = h_type h /\
    is_payload (h_misc h) si b bs).
Proof.
  intros h Ht Hm Hs. unfold f_record_with_header. eapply Snd_bind; [apply Snd_metadata, Hs|]. intros r b1. cbv beta.
  apply Snd_cfg. eapply Snd_bind.
  { apply (Snd_sub env lim 65535). apply (Snd_body pl Hpl (fe_cfg env) (h_misc h) 65535 (usize_big pl Hpl) w Hw Hm Hru Hri _ Ht). }
  intros v b2. apply Snd_ret. intros rest (-> & Hb) (H8 & Hl & B & tail & si & Eb & Em & Htl). rewrite !app_nil_r.
  split; [lia|].
  assert (B' := B). rewrite Eb in B'. apply Forall_app in B' as [Bf _].
  destruct (Hb Bf) as (body & unread & Ef & b & Et & <- & Hg & Hlaid & Hall).
  { apply (f_equal len) in Eb. rewrite len_app in Eb. change (2 ^ 16) with 65536 in Hs. lia. }
  exists b, si. cbn [fst snd]. split; [reflexivity|]. split; [exact Em|]. split; [exact Et|].
  exists body, unread, tail. split; [now rewrite app_assoc, <- Ef|]. split; [exact Hg|]. split; [exact Hlaid|].
  split; [exact Hall|]. rewrite (ends_type _ _ Hg), Et. exact Htl.
Qed.

Lemma Snd_record : Snd env lim (f_record pl) (fun r bs _ => exists m si b,
  r = (expected b, mkMeta (w_type b) m si) /\ record m si b bs).
Proof.
  unfold f_record. 
  eapply (Snd_bindP _ _ _ _ _ _ (fun h bs _ => h_type h < 2 ^ 32 /\ h_misc h < 2 ^ 16 /\ h_size h < 2 ^ 16 /\
    bs = w_header o (h_type h) (h_misc h) (h_size h))).
  { unfold f_header. eapply Snd_bind; [apply Snd_u32|]. intros t b1. cbv beta.
    eapply Snd_bind; [apply Snd_u16|]. intros m b2. cbv beta. eapply Snd_bind; [apply Snd_u16|]. intros s b3.
    apply Snd_ret. intros rest [H3 ->] [H2 ->] [H1 ->]. rewrite app_nil_r. auto. }
  { intros h bs rest H. exact (conj (proj1 H) (conj (proj1 (proj2 H)) (proj1 (proj2 (proj2 H))))). }
  intros h b1 (Ht & Hm & Hs). eapply Snd_conv; [apply Snd_record_with_header; assumption|].
  intros [v md] bs rest (El & b & si & Ev & Em & Et & Hp) (_ & _ & _ & ->). cbn [fst snd] in *. subst v md.
  exists (h_misc h), si, b. rewrite Et. split; [reflexivity|]. apply is_record_iff. exists bs. rewrite Et, <- El. auto.
Qed.

Lemma Runs_record : forall m si b bs rest pos, bytes bs -> record m si b bs ->
  Runs env (f_record pl) bs (expected b, mkMeta (w_type b) m si) rest pos.
Proof.
  intros m si b bs rest pos B H. apply is_record_iff in H as (pay & -> & Hs & Hm & body & unread & tail & E & Hg & Hl & Hall & Ht).
  assert (Hty := given_type _ _ Hg). apply Forall_app in B as [_ B].
  unfold f_record. eapply Runs_bind; [eapply (Rt_runs _ _ 0 true); now apply Rt_header|].
  unfold f_record_with_header. cbn [h_size h_type h_misc].
  assert (Bp := B). unfold bytes in Bp. rewrite E, !Forall_app in Bp. destruct Bp as (B1 & B2 & B3).
  assert (L := f_equal len E). rewrite !len_app in L. change (2 ^ 16) with 65536 in Hs.
  eapply Runs_last with (a := ((body ++ unread, pos + len (w_header o (w_type b) m (8 + len pay))), mkMeta (w_type b) m si)).
  - unfold f_metadata_with_header. cbn [h_size h_type h_misc].
    replace (8 + len pay <? 8) with false by (symmetry; apply N.ltb_ge; lia).
    replace (8 + len pay - 8) with (len pay) by lia.
    eapply Runs_last; [apply Runs_split; reflexivity|]. cbv beta.
    rewrite (ends_type _ _ Hg) in Ht. destruct ((w_type b =? 1) || (w_type b =? 9)); cbn [negb] in Ht.
    + destruct Ht as [-> ->]. apply Runs_ret. now rewrite E, app_nil_r.
    + destruct Ht as [Hsi Hf]. apply Runs_cfg.
      pose proof (l_sample_id_len pl env w Hw _ _ Hf) as Hlt.
      replace (len pay <? estimate_len (fe_cfg env)) with false by (symmetry; apply N.ltb_ge; lia).
      eapply Runs_last with (a := ((body ++ unread, pos + len (w_header o (w_type b) m (8 + len pay))), si));
        [|now apply Runs_ret].
      eapply Runs_sub with (bs := pay) (unread := []); [now rewrite app_nil_r|].
      rewrite E, app_assoc. eapply Runs_bind; [apply Runs_split; rewrite !len_app; lia|].
      eapply Runs_last; [apply (Runs_sample_id pl (mkEnv (fe_cfg env) eof_error) 0 (N.le_0_l _) w Hw); [exact Hsi|exact B3|exact Hf]|].
      now apply Runs_ret.
  - cbv beta. cbn [fst snd]. apply Runs_cfg. eapply Runs_last; [|now apply Runs_ret].
    eapply Runs_sub; [reflexivity|].
    apply (Runs_body pl Hpl (fe_cfg env) m 65535 (usize_big pl Hpl) w Hw Hm Hru Hri); try assumption. lia.
Qed.
End Record.
