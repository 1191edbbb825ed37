(** Record bodies and whole records: the flat parsers undo the encoders. *)
From Coq Require Import NArith List Bool Lia.
From Verif Require Import Base BaseFacts Types Platform Config Bits ConfFacts Records Sample
  Record Flat Wire Codec Roundtrip RtSample.
Import ListNotations.
Open Scope N_scope.

Lemma configured_misc : forall c w m, configured c w -> configured (with_misc c m) w.
Proof.
  intros c w m (H1 & H2 & H3 & H4 & H5 & H6). unfold configured.
  rewrite with_misc_sample_type, with_misc_read_format, with_misc_id_all, with_misc_hw_index.
  cbn [with_misc c_regs_user c_regs_intr]. tauto.
Qed.

(** A TEXT_POKE whose old bytes are missing or fill the record is read properly
    only from a buffer that stays around. *)
Definition poke_edge (r : text_poke list) : Prop :=
  tp_old r = [] \/ (tp_new r = [] /\ pad8 (4 + len (tp_old r)) = 0).

(** No sample_id follows the body. *)
Definition no_trailer (w : settings) : Prop :=
  ws_id_all w = true ->
  sbit w 1 = false /\ sbit w 2 = false /\ sbit w 6 = false /\ sbit w 7 = false /\ sbit w 9 = false /\
  sbit w 16 = false.

(** What the crate cannot read back (each exclusion is a known defect, shown by a
    [_refuted] theorem). *)
Definition readable (host o : order) (w : settings) (poke : bool) (b : wbody) : Prop :=
  match b with
  | WMmap _ _ => no_trailer w
  | WRead _ => known_format w
  | WSample x =>
      (sbit w 4 = true -> known_format w) /\ (sbit w 24 = true -> sbit w 14 = true) /\ 
      followed (w_fields o w host x) [] /\
      regs_dumped (s_regs_user (sw_sample x)) /\ regs_dumped (s_regs_intr (sw_sample x))
  | WSwitch => False
  | WNamespaces r => o = host -> nss_entries r <> []
  | WTextPoke r => poke = true \/ ~ poke_edge r
  | WOther _ d => d <> []
  | _ => True
  end.

Lemma round_up_pad : forall n, round_up_mod n 4 8 = n + pad8 (4 + n).
Proof.
  intros n. unfold round_up_mod. cbv zeta.
  assert (Hn : n mod 8 < 8) by (apply N.mod_lt; discriminate).
  pose proof (N.div_mod n 8 ltac:(discriminate)) as D.
  assert (H4 : (4 + n) mod 8 = (4 + n mod 8) mod 8).
  { rewrite N.add_mod, (N.add_mod 4 (n mod 8)) by discriminate. now rewrite N.mod_mod. }
  unfold pad8. rewrite H4. revert Hn. generalize (n mod 8). intros r Hr.
  assert (Hc : r = 0 \/ r = 1 \/ r = 2 \/ r = 3 \/ r = 4 \/ r = 5 \/ r = 6 \/ r = 7) by lia.
  destruct Hc as [->|[->|[->|[->|[->|[->|[->| ->]]]]]]]; reflexivity.
Qed.

Section Poke.
Context (pl : platform) (Hpl : pl_ok pl) (a0 : N) (poke : bool) (env : fenv).

Let o := order_of pl (c_endian (fe_cfg env)).

Notation Rt := (Rt a0 poke env).

Lemma Rt_text_poke_pad : forall a old new pad rest pos, a < 2 ^ 64 ->
  len old < 65536 -> len new < 65536 -> len pad = pad8 (4 + len old + len new) ->
  poke = true \/ (old <> [] /\ (new <> [] \/ pad <> [])) ->
  Rt (f_text_poke pl) (w64 o a ++ w16 o (len old) ++ w16 o (len new) ++ old ++ new ++ pad)
    (mkTextPoke a old new) rest pos.
Proof.
  intros a old new pad rest pos Ha Hlo Hln Hp He. unfold f_text_poke.
  eapply Rt_bind; [apply Rt_u64; assumption|].
  eapply Rt_bind; [apply Rt_u16; change (2 ^ 16) with 65536; lia|].
  eapply Rt_bind; [apply Rt_u16; change (2 ^ 16) with 65536; lia|]. cbv beta zeta.
  rewrite round_up_pad, N.add_assoc.
  eapply Rt_last.
  - apply Rt_take; [rewrite !len_app; lia|].
    destruct old; [|discriminate]. destruct new; [|discriminate]. destruct pad; discriminate.
  - cbv beta. apply Rt_take_event.
    + intros E. cbn [ev_fine]. destruct He as [He|He]; [exact He|]. exfalso.
      apply orb_true_iff in E. destruct E as [E|E]; apply N.eqb_eq in E.
      * apply (proj1 He). now apply len_0.
      * assert (En : len new = 0) by lia. apply len_0 in En.
        assert (Ep : len pad = 0) by lia. apply len_0 in Ep. destruct He as [_ [He|He]]; tauto.
    + apply Rt_ret_eq. rewrite take_app_exact, drop_app_exact, take_app_exact by reflexivity. reflexivity.
Qed.

End Poke.

Section Body.
Context (pl : platform) (Hpl : pl_ok pl) (a0 : N) (poke : bool) (c : config) (m : N).
Context (w : settings) (Hw : configured c w) (Hm : m < 2 ^ 16).

Let env := mkEnv (with_misc c m) eof_error.
Let o := order_of pl (c_endian c).

Notation Rt := (Rt a0 poke env).

Ltac u8 := eapply Rt_bind; [apply Rt_u8; assumption|].
Ltac u16 := eapply Rt_bind; [apply Rt_u16; assumption|].
Ltac u32 := eapply Rt_bind; [apply Rt_u32; assumption|].
Ltac u64 := eapply Rt_bind; [apply Rt_u64; assumption|].
Ltac last_u := eapply Rt_last; [first [apply Rt_u64; assumption | apply Rt_u32; assumption]|].
Ltac fin := apply Rt_ret_eq; reflexivity.
Ltac str := eapply Rt_last; [apply Rt_string; [reflexivity|eassumption]|].

Lemma Hw' : configured (fe_cfg env) w.
Proof. apply configured_misc. exact Hw. Qed.

Lemma misc_bit : forall k, negb (N.land (misc (fe_cfg env)) (2 ^ k) =? 0) = N.testbit m k.
Proof.
  intros k. cbn [env fe_cfg]. unfold env. cbn [fe_cfg]. rewrite with_misc_misc by exact Hm.
  rewrite land_pow2. destruct (N.testbit m k); [|reflexivity].
  destruct (N.eqb_spec (2 ^ k) 0) as [E|]; [|reflexivity]. apply N.pow_nonzero in E; [easy|discriminate].
Qed.

Lemma Rt_mmap : forall r k pos, wbody_ok w m (WMmap r k) ->
  Rt (f_mmap pl) (w_body o w (WMmap r k)) r [] pos.
Proof.
  intros [a b d e f g] k pos H. cbn [wbody_ok mm_pid mm_tid mm_addr mm_len mm_pgoff mm_filename] in H.
  destruct H as (H1 & H2 & H3 & H4 & H5 & H6). unfold f_mmap. cbn [w_body].
  u32. u32. u64. u64. u64. str. fin.
Qed.

Lemma Rt_lost : forall r rest pos, wbody_ok w m (WLost r) ->
  Rt (f_lost pl) (w_body o w (WLost r)) r rest pos.
Proof. intros [a b] rest pos H. destruct H as (H1 & H2). unfold f_lost; cbn [w_body]. u64. last_u. fin. Qed.

Lemma Rt_comm : forall r k pos, wbody_ok w m (WComm r k) ->
  Rt (f_comm pl) (w_body o w (WComm r k)) r [] pos.
Proof. intros [a b d] k pos H. destruct H as (H1 & H2 & H3). unfold f_comm; cbn [w_body]. u32. u32. str. fin. Qed.

Lemma Rt_exit : forall r rest pos, wbody_ok w m (WExit r) ->
  Rt (f_exit pl) (w_body o w (WExit r)) r rest pos.
Proof.
  intros [a b d e f] rest pos H. destruct H as (H1 & H2 & H3 & H4 & H5). unfold f_exit; cbn [w_body].
  u32. u32. u32. u32. last_u. fin.
Qed.

Lemma Rt_throttle : forall r rest pos, wbody_ok w m (WThrottle r) ->
  Rt (f_throttle pl) (w_body o w (WThrottle r)) r rest pos.
Proof.
  intros [a b d] rest pos H. destruct H as (H1 & H2 & H3). unfold f_throttle; cbn [w_body].
  u64. u64. last_u. fin.
Qed.

Lemma Rt_read : forall r rest pos, wbody_ok w m (WRead r) -> known_format w ->
  Rt (f_read pl) (w_body o w (WRead r)) r rest pos.
Proof.
  intros [a b v] rest pos H Hk. destruct H as (H1 & H2 & H3 & H4). unfold f_read; cbn [w_body].
  u32. u32. eapply Rt_last; [eapply Rt_read_value; try eassumption; exact Hw'|]. fin.
Qed.

Lemma Rt_detail : forall d rest pos, detail_wf m d ->
  Rt (f_mmap_detail pl) (w_detail o d) d rest pos.
Proof.
  intros d rest pos H. unfold f_mmap_detail. eapply Rt_bind0; [apply Rt_cfg|]. cbv beta.
  unfold MISC_MMAP_BUILD_ID. rewrite misc_bit. destruct d as [maj min ino gen|b n]; cbn [w_detail].
  - destruct H as (-> & H1 & H2 & H3 & H4). u32. u32. u64. last_u. fin.
  - destruct H as (-> & H1 & H2 & H3).
    eapply Rt_bind; [apply Rt_u8; lia|]. eapply Rt_bind; [apply Rt_u8; reflexivity|].
    eapply Rt_bind; [apply Rt_u16; reflexivity|].
    eapply Rt_last.
    + apply Rt_take; [now symmetry|]. apply app_nonnil. intros E. now rewrite E in H2.
    + replace (20 <? n) with false by (symmetry; apply N.ltb_ge; exact H3). fin.
Qed.

Lemma Rt_mmap2 : forall r k pos, wbody_ok w m (WMmap2 r k) ->
  Rt (f_mmap2 pl) (w_body o w (WMmap2 r k)) r [] pos.
Proof.
  intros [a b d e f g h i j] k pos H. destruct H as (H1 & H2 & H3 & H4 & H5 & H6 & H7 & H8 & H9).
  unfold f_mmap2; cbn [w_body].
  u32. u32. u64. u64. u64. eapply Rt_bind; [apply Rt_detail; exact H6|]. u32. u32. str. fin.
Qed.

Lemma Rt_aux_rec : forall r rest pos, wbody_ok w m (WAux r) ->
  Rt (f_aux pl) (w_body o w (WAux r)) r rest pos.
Proof.
  intros [a b d] rest pos H. destruct H as (H1 & H2 & H3). unfold f_aux; cbn [w_body].
  u64. u64. last_u. fin.
Qed.

Lemma Rt_itrace : forall r rest pos, wbody_ok w m (WItraceStart r) ->
  Rt (f_itrace_start pl) (w_body o w (WItraceStart r)) r rest pos.
Proof. intros [a b] rest pos H. destruct H as (H1 & H2). unfold f_itrace_start; cbn [w_body]. u32. last_u. fin. Qed.

Lemma Rt_lost_samples : forall r rest pos, wbody_ok w m (WLostSamples r) ->
  Rt (f_lost_samples pl) (w_body o w (WLostSamples r)) r rest pos.
Proof. intros [a] rest pos H. cbn in H. unfold f_lost_samples; cbn [w_body]. last_u. fin. Qed.

Lemma Rt_switch_wide : forall r rest pos, wbody_ok w m (WSwitchCpuWide r) ->
  Rt (f_switch_cpu_wide pl) (w_body o w (WSwitchCpuWide r)) r rest pos.
Proof.
  intros r rest pos H. destruct H as (H1 & H2 & H3). unfold f_switch_cpu_wide; cbn [w_body].
  u32. last_u. eapply Rt_bind0; [apply Rt_cfg|]. cbv beta. unfold MISC_SWITCH_OUT. rewrite misc_bit, <- H3.
  destruct r; fin.
Qed.

Lemma Rt_namespaces : forall r rest pos, wbody_ok w m (WNamespaces r) ->
  (o = pl_host pl -> nss_entries r <> []) -> len (w_body o w (WNamespaces r)) <= usize_max pl -> (a0 + pos) mod 8 = 0 ->
  Rt (f_namespaces pl) (w_body o w (WNamespaces r)) r rest pos.
Proof.
  intros [a b l] rest pos H Hne Hlen Ha. destruct H as (H1 & H2 & H3).
  unfold f_namespaces; cbn [w_body nss_pid nss_tid nss_entries] in *.
  rewrite !len_app, !w32_len, w64_len in Hlen.
  assert (Hn : len l <= usize_max pl) by (rewrite (w_list_len _ _ 16) in Hlen by apply w_ns_len; lia).
  u32. u32. eapply Rt_bind; [apply Rt_u64; pose proof (usize_64 pl Hpl); lia|].
  cbv beta. rewrite as_usize_small by assumption.
  eapply Rt_last; [|fin].
  apply Rt_array; try reflexivity.
  - intros x. apply w_ns_len.
  - eapply Forall_impl; [|exact H3]. intros e [He1 He2]. now apply dec_ns.
  - pose proof (usize_big pl Hpl). lia.
  - intros Eh E. contradiction (Hne Eh E).
  - rewrite !w32_len, w64_len. rewrite <- !N.add_assoc. now apply mod8_add.
Qed.

Lemma Rt_ksymbol : forall r k pos, wbody_ok w m (WKsymbol r k) ->
  Rt (f_ksymbol pl) (w_body o w (WKsymbol r k)) r [] pos.
Proof.
  intros [a b d e f] k pos H. destruct H as (H1 & H2 & H3 & H4 & H5). unfold f_ksymbol; cbn [w_body].
  u64. u32. u16. u16. str. fin.
Qed.

Lemma Rt_bpf : forall r rest pos, wbody_ok w m (WBpfEvent r) ->
  Rt (f_bpf_event pl) (w_body o w (WBpfEvent r)) r rest pos.
Proof.
  intros [a b d t] rest pos H. destruct H as (H1 & H2 & H3 & H4 & H5).
  unfold f_bpf_event; cbn [w_body bpf_tag] in *.
  u16. u16. u32. eapply Rt_last; [|fin].
  apply Rt_take; [now symmetry|]. apply app_nonnil. intros E. now rewrite E in H5.
Qed.

Lemma Rt_cgroup : forall r k pos, wbody_ok w m (WCgroup r k) ->
  Rt (f_cgroup pl) (w_body o w (WCgroup r k)) r [] pos.
Proof. intros [a b] k pos H. destruct H as (H1 & H2). unfold f_cgroup; cbn [w_body]. u64. str. fin. Qed.

Lemma Rt_text_poke : forall r rest pos, wbody_ok w m (WTextPoke r) ->
  poke = true \/ ~ poke_edge r -> len (tp_old r) < 65536 -> len (tp_new r) < 65536 ->
  Rt (f_text_poke pl) (w_body o w (WTextPoke r)) r rest pos.
Proof.
  intros [a old new] rest pos H He Hlo Hln. destruct H as (H1 & H2 & H3).
  cbn [w_body tp_addr tp_old tp_new] in *. apply (Rt_text_poke_pad pl a0 poke env); try assumption.
  - apply zeros_len.
  - destruct He as [He|He]; [now left|right]. unfold poke_edge in He. cbn [tp_old tp_new] in He.
    split; [tauto|]. destruct new as [|x t]; [right|left; discriminate].
    intros E. apply He. right. split; [reflexivity|].
    apply (f_equal len) in E. rewrite zeros_len, !len_nil, N.add_0_r in E. exact E.
Qed.

Lemma Rt_hwid : forall r rest pos, wbody_ok w m (WAuxOutputHwId r) ->
  Rt (f_aux_output_hw_id pl) (w_body o w (WAuxOutputHwId r)) r rest pos.
Proof. intros [a] rest pos H. cbn in H. unfold f_aux_output_hw_id; cbn [w_body]. last_u. fin. Qed.

Lemma f_body_other : forall t, (t = 0 \/ 21 < t) -> f_body pl t = (r <~ f_rest ;; fret (BUnknown r)).
Proof.
  intros t Ht. unfold f_body.
  repeat match goal with
  | |- context [t =? ?k] => replace (t =? k) with false by (symmetry; apply N.eqb_neq; lia)
  end. reflexivity.
Qed.

Lemma Rt_body : forall b pos, wbody_ok w m b -> readable (pl_host pl) o w poke b ->
  len (w_body o w b) < 65536 -> (a0 + pos) mod 8 = 0 ->
  Rt (f_body pl (w_type b)) (w_body o w b) (expected b) [] pos.
Proof.
  intros b pos Hok Hr Hlen Ha.
  destruct b; try (cbn [w_type f_body expected N.eqb Pos.eqb]; unfold f_body; cbn [N.eqb Pos.eqb];
    eapply Rt_last; [|apply Rt_ret]).
  - now apply Rt_mmap.
  - now apply Rt_lost.
  - now apply Rt_comm.
  - now apply Rt_exit.
  - now apply Rt_throttle.
  - now apply Rt_throttle.
  - now apply Rt_exit.
  - now apply Rt_read.
  - destruct Hr as (K1 & K2 & K3 & K4 & K5). cbn [w_body] in *. apply Rt_sample; try assumption; [exact Hw'|]. etransitivity; [|exact (usize_big pl Hpl)]. apply N.lt_succ_r. exact Hlen.
  - now apply Rt_mmap2.
  - now apply Rt_aux_rec.
  - now apply Rt_itrace.
  - now apply Rt_lost_samples.
  - contradiction.
  - now apply Rt_switch_wide.
  - apply Rt_namespaces; try assumption. pose proof (usize_big pl Hpl). lia.
  - now apply Rt_ksymbol.
  - now apply Rt_bpf.
  - now apply Rt_cgroup.
  - cbn [w_body] in Hlen. rewrite !len_app in Hlen. apply Rt_text_poke; try assumption; lia.
  - now apply Rt_hwid.
  - cbn [w_type expected w_body]. destruct Hok as (H1 & H2 & H3). rewrite f_body_other by exact H1.
    eapply Rt_last; [|apply Rt_ret]. now apply Rt_rest.
Qed.

End Body.

(** Length of the trailer. *)
Lemma estimate_len_bits : forall c,
  estimate_len c =
  if sample_id_all c then
    8 * (b2n (N.testbit (sample_type c) 1) + b2n (N.testbit (sample_type c) 2) +
         b2n (N.testbit (sample_type c) 6) + b2n (N.testbit (sample_type c) 9) +
         b2n (N.testbit (sample_type c) 7) + b2n (N.testbit (sample_type c) 16))
  else 0.
Proof.
  intros c. unfold estimate_len. destruct (sample_id_all c); [|reflexivity]. cbn [negb]. cbv zeta.
  unfold SF_TID, SF_TIME, SF_ID, SF_STREAM_ID, SF_CPU, SF_IDENTIFIER.
  rewrite !N.land_lor_distr_r, !land_pow2.
  destruct (N.testbit (sample_type c) 1), (N.testbit (sample_type c) 2), (N.testbit (sample_type c) 6),
    (N.testbit (sample_type c) 9), (N.testbit (sample_type c) 7), (N.testbit (sample_type c) 16);
    reflexivity.
Qed.

Lemma sample_id_len : forall o c w si, configured c w -> len (w_sample_id o w si) = estimate_len c.
Proof.
  intros o c w si Hw. rewrite estimate_len_bits. destruct Hw as (-> & _ & -> & _).
  unfold w_sample_id, sbit. destruct (ws_id_all w); [|reflexivity]. cbn [w_if].
  rewrite !len_app, !w_if_len, !len_app, !w32_len, !w64_len. unfold b2n.
  destruct (N.testbit (ws_sample_type w) 1), (N.testbit (ws_sample_type w) 2),
    (N.testbit (ws_sample_type w) 6), (N.testbit (ws_sample_type w) 9),
    (N.testbit (ws_sample_type w) 7), (N.testbit (ws_sample_type w) 16); reflexivity.
Qed.

Section Whole.
Context (pl : platform) (Hpl : pl_ok pl) (a0 : N) (poke : bool) (env : fenv).
Context (w : settings) (Hw : configured (fe_cfg env) w).

Let o := order_of pl (c_endian (fe_cfg env)).

Lemma Rt_split : forall e d rest pos n, n = len d -> Rt a0 poke e (f_split n) d (d, pos) rest pos.
Proof.
  intros e d rest pos n ->. unfold Rt, f_split. destruct (N.eqb_spec (len d) 0) as [E|E].
  - apply len_0 in E. subst d. exists []. split; [|constructor]. cbn [app]. now rewrite N.add_0_r.
  - assert (Hne : d ++ rest <> []) by (apply app_nonnil; intros E1; rewrite E1 in E; now apply E).
    destruct (Rt_take a0 poke e d rest pos (len d) eq_refl Hne) as [ev [Ee Hev]].
    rewrite Ee. exists ev. split; [reflexivity|exact Hev].
Qed.

Lemma Rt_sub : forall e B (m : F B) cfg d p b rest pos,
  Rt a0 poke (mkEnv cfg eof_error) m d b [] p ->
  Rt a0 poke e (f_sub m cfg (d, p)) [] b rest pos.
Proof.
  intros e B m cfg d p b rest pos [ev [E Hev]]. exists ev. split; [|exact Hev].
  unfold f_sub. cbn [fst snd]. rewrite app_nil_r in E. rewrite E. cbn [app]. now rewrite len_nil, N.add_0_r.
Qed.

Lemma no_trailer_nil : forall o si, no_trailer w -> w_sample_id o w si = [].
Proof.
  intros o' si H. unfold w_sample_id, no_trailer in *. destruct (ws_id_all w); [|reflexivity].
  destruct (H eq_refl) as (E1 & E2 & E6 & E7 & E9 & E16). now rewrite E1, E2, E6, E7, E9, E16.
Qed.

Definition meta_of (m : N) (si : sample_id) (b : wbody) : metadata :=
  mkMeta (w_type b) m (match b with WSample _ => sample_id_default | _ => si end).

Lemma id_off_default : forall si, sample_id_ok w si -> no_trailer w -> si = sample_id_default.
Proof.
  intros [a b c d e f] H E. unfold sample_id_ok in H. cbv zeta in H.
  cbn [si_pid si_tid si_time si_id si_stream_id si_cpu] in H. unfold no_trailer in E.
  destruct (ws_id_all w); cbn [andb] in H;
    [destruct (E eq_refl) as (E1 & E2 & E6 & E7 & E9 & E16); rewrite E1, E2, E6, E7, E9, E16 in H|];
    cbn [orb] in H; clear E; [clear E1 E2 E6 E7 E9 E16|].
  all: destruct H as (H1 & H2 & H3 & H4 & H5 & H6); unfold field in *;
  destruct a; [now destruct H1|]; destruct b; [now destruct H2|]; destruct c; [now destruct H3|];
  destruct d; [now destruct H4|]; destruct e; [now destruct H5|]; destruct f; [now destruct H6|reflexivity].
Qed.

Lemma Rt_header : forall t m s rest pos, t < 2 ^ 32 -> m < 2 ^ 16 -> s < 2 ^ 16 ->
  Rt a0 poke env (f_header pl) (w_header o t m s) (mkHeader t m s) rest pos.
Proof.
  intros t m s rest pos Ht Hm Hs. unfold f_header, w_header.
  eapply Rt_bind; [now apply Rt_u32|]. eapply Rt_bind; [now apply Rt_u16|].
  eapply Rt_last; [now apply Rt_u16|]. apply Rt_ret.
Qed.

Lemma w_type_small : forall m b, wbody_ok w m b -> w_type b < 2 ^ 32.
Proof. intros m b H. destruct b; try reflexivity. apply H. Qed.

Lemma Rt_metadata : forall m si b rest pos, sample_id_ok w si -> wbody_ok w m b ->
  (forall r k, b = WMmap r k -> no_trailer w) ->
  Rt a0 poke env (f_metadata_with_header pl
         (mkHeader (w_type b) m (8 + len (w_body o w b ++ w_trailer o w b si))))
     (w_body o w b ++ w_trailer o w b si)
     ((w_body o w b, pos), meta_of m si b) rest pos.
Proof.
  intros m si b rest pos Hsi Hok Hr. unfold f_metadata_with_header. cbn [h_size h_type h_misc].
  set (pay := w_body o w b ++ w_trailer o w b si).
  replace (8 + len pay <? 8) with false by (symmetry; apply N.ltb_ge; lia).
  replace (8 + len pay - 8) with (len pay) by lia.
  eapply Rt_last; [apply Rt_split; reflexivity|]. cbv beta.
  destruct (N.eqb_spec (w_type b) 1) as [E1|E1].
  { (* MMAP *) cbn [orb].
    assert (E : exists r k, b = WMmap r k).
    { destruct b; try discriminate; [eauto|]. destruct Hok as [[Ht|Ht] _]; cbn [w_type] in E1; lia. }
    destruct E as [r [k ->]]. specialize (Hr r k eq_refl).
    apply Rt_ret_eq. unfold pay, meta_of. rewrite (id_off_default si Hsi Hr).
    cbn [w_trailer]. now rewrite (no_trailer_nil _ _ Hr), app_nil_r. }
  destruct (N.eqb_spec (w_type b) 9) as [E9|E9].
  { (* SAMPLE *) cbn [orb].
    assert (E : exists x, b = WSample x).
    { destruct b; try discriminate; [eauto|]. destruct Hok as [[Ht|Ht] _]; cbn [w_type] in E9; lia. }
    destruct E as [x ->]. apply Rt_ret_eq. unfold pay, meta_of. cbn [w_trailer].
    now rewrite app_nil_r. }
  cbn [orb]. eapply Rt_bind0; [apply Rt_cfg|]. cbv beta.
  assert (Etr : w_trailer o w b si = w_sample_id o w si).
  { destruct b; try reflexivity. cbn [w_type] in E9. congruence. }
  assert (Elen : len pay = len (w_body o w b) + estimate_len (fe_cfg env)).
  { unfold pay. rewrite len_app, Etr. f_equal. now apply sample_id_len. }
  replace (len pay <? estimate_len (fe_cfg env)) with false by (symmetry; apply N.ltb_ge; lia).
  replace (len pay - estimate_len (fe_cfg env)) with (len (w_body o w b)) by lia.
  eapply Rt_bind0.
  - apply Rt_sub. unfold pay. rewrite Etr.
    eapply Rt_bind; [apply Rt_split; reflexivity|].
    eapply Rt_last; [eapply Rt_sample_id; [exact Hw|exact Hsi]|]. apply Rt_ret.
  - apply Rt_ret_eq. cbn [fst snd]. unfold meta_of. f_equal. f_equal.
    destruct b; try reflexivity. cbn [w_type] in E9. congruence.
Qed.

Lemma Rt_record : forall m si b rest pos,
  m < 2 ^ 16 -> sample_id_ok w si -> wbody_ok w m b -> readable (pl_host pl) o w poke b ->
  len (w_record o w m si b) < 65536 -> (a0 + pos) mod 8 = 0 ->
  Rt a0 poke env (f_record pl) (w_record o w m si b) (expected b, meta_of m si b) rest pos.
Proof.
  intros m si b rest pos Hm Hsi Hok Hr Hlen Ha. unfold f_record, w_record in *. cbv zeta in *.
  rewrite len_app, w_header_len in Hlen.
  eapply Rt_bind.
  { apply Rt_header; [eapply w_type_small; exact Hok|exact Hm|]. change (2 ^ 16) with 65536. lia. }
  rewrite w_header_len. unfold f_record_with_header.
  eapply Rt_last; [apply Rt_metadata; try assumption; intros r k ->; exact Hr|]. cbv beta. cbn [fst snd h_type h_misc].
  eapply Rt_bind0; [apply Rt_cfg|]. cbv beta.
  eapply Rt_bind0.
  - apply Rt_sub. eapply Rt_body; try eassumption.
    + rewrite len_app in Hlen. fold o. lia.
    + now apply mod8_add.
  - apply Rt_ret.
Qed.

End Whole.
