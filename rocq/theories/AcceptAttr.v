(** Which byte strings are attrs: what the flat parser of [perf_event_attr] accepts. *)
From Coq Require Import NArith List Bool Lia.
From Verif Require Import Base BaseFacts Types Platform Config Buf Parser Contract Flat Attr Wire WireAttr.
From Verif Require Import Codec FrameFacts AttrFacts Accept AcceptFacts AcceptRecord.
Import ListNotations.
Open Scope N_scope.

Lemma noev_attr : forall pl, noev (f_attr pl).
Proof.
  intros pl. unfold f_attr. apply noev_bind; [apply noev_uint|]. intros t.
  apply noev_bind; [apply noev_uint|]. intros s. destruct (negb (attr_size_ok s)); [apply noev_fail|].
  apply noev_bind; [apply noev_split|]. intros st. apply noev_bind; [apply noev_cfg|]. intros c.
  apply noev_sub. unfold f_attr_fields. cbv zeta.
  repeat (apply noev_bind; [unfold f_or0; match goal with |- noev (if ?b then _ else _) => destruct b end;
                            [apply noev_uint|apply noev_ret]|intros ?]).
  apply noev_bind; [|intros; apply noev_ret]. destruct (136 <? s); [|apply noev_ret].
  apply noev_bind; [apply noev_rest|]. intros r. destruct (forallb _ r); [apply noev_ret|apply noev_fail].
Qed.

Lemma Snd_or0 : forall env lim b m B (w : N -> list N),
  0 < B -> Snd env lim m (fun v bs _ => v < B /\ bs = w v) ->
  Snd env lim (f_or0 b m) (fun v bs _ => v < B /\ (b = false -> v = 0) /\ bs = w_if b (w v)).
Proof.
  intros env lim [] m B w HB H; cbn [f_or0 w_if].
  - eapply Snd_conv; [exact H|]. cbv beta. intros v bs _ [H1 H2]. now split.
  - apply Snd_ret. now intros.
Qed.

Definition attr_fits (a : attr) (r2 r3 : N) : Prop :=
  at_type a < 2 ^ 32 -> at_size a < 2 ^ 32 ->
  forall ext, In (at_size a) versions /\ ext = [] \/ 136 < at_size a /\ len ext = at_size a - 136 ->
  attr_ok a r2 r3 ext.

Section Fields.
Context (pl : platform) (env : fenv) (lim : N).

Lemma Snd_attr_fields : forall t s,
  Snd env lim (f_attr_fields pl t s) (fun v bs rest => exists r2 r3 more,
    at_type v = t /\ at_size v = s /\ attr_fits v r2 r3 /\ cut v = v /\
    bs = w_fields pl env s v r2 r3 ++ more /\
    (if 136 <? s then rest = [] /\ forallb (fun b => b =? 0) more = true else more = [])).
Proof.
  intros t s. unfold f_attr_fields. cbv zeta.
  repeat (eapply Snd_bind;
    [apply Snd_or0; [|first [apply Snd_u64|apply Snd_u32|apply Snd_u16]]; reflexivity|];
    cbv beta; intros ? ?).
  eapply (Snd_bind _ _ _ _ _ _ (fun _ more rest => if 136 <? s
    then rest = [] /\ forallb (fun b => b =? 0) more = true else more = [])).
  { destruct (136 <? s); [|apply Snd_ret; reflexivity].
    eapply Snd_bind; [apply Snd_rest|]. intros r b1. cbv beta.
    destruct (forallb (fun b => b =? 0) r) eqn:E; [|apply Snd_fail].
    apply Snd_ret. intros rest (-> & _ & H). cbn [app] in H. rewrite app_nil_r. now split. }
  intros u more. apply Snd_ret. intros rest Hm. intros.
  repeat match goal with H : _ /\ _ /\ _ = _ |- _ => destruct H as (? & ? & ->) end.
  eexists a15, a17, more. cbn [at_type at_size]. split; [reflexivity|]. split; [reflexivity|].
  split; [|split; [|split]].
  - unfold attr_fits, attr_ok. cbn [at_type at_size at_config at_sample_period at_sample_type at_read_format
      at_bits at_wakeup_events at_bp_type at_config1 at_config2 at_branch_sample_type at_sample_regs_user
      at_sample_stack_user at_clockid at_sample_regs_intr at_aux_watermark at_sample_max_stack
      at_aux_sample_size at_sig_data at_config3]. intros. repeat split; eassumption.
  - unfold cut. cbn [at_type at_size at_config at_sample_period at_sample_type at_read_format
      at_bits at_wakeup_events at_bp_type at_config1 at_config2 at_branch_sample_type at_sample_regs_user
      at_sample_stack_user at_clockid at_sample_regs_intr at_aux_watermark at_sample_max_stack
      at_aux_sample_size at_sig_data at_config3].
    assert (K : forall (b : bool) v, (b = false -> v = 0) -> (if b then v else 0) = v) by (intros [] v Hv; [reflexivity|now symmetry; apply Hv]).
    rewrite !K by assumption. reflexivity.
  - unfold w_fields. cbv zeta. cbn [at_type at_size at_config at_sample_period at_sample_type at_read_format
      at_bits at_wakeup_events at_bp_type at_config1 at_config2 at_branch_sample_type at_sample_regs_user
      at_sample_stack_user at_clockid at_sample_regs_intr at_aux_watermark at_sample_max_stack
      at_aux_sample_size at_sig_data at_config3].
    rewrite app_nil_r, <- !app_assoc. reflexivity.
  - exact Hm.
Qed.
End Fields.

(** The attr a byte string is: the struct cut at its size, what a later version added,
    and four bytes more (see [C30_refuted]); all of the latter zero for later versions. *)
Lemma Snd_attr : forall pl env lim,
  Snd env lim (f_attr pl) (fun v bs _ => exists r2 r3 ext four,
    attr_ok v r2 r3 ext /\ attr_seen v = v /\ len four = 4 /\
    bs = w_attr (order_of pl (c_endian (fe_cfg env))) v r2 r3 ext ++ four /\
    (at_size v <= 136 \/ Forall (fun b => b = 0) (ext ++ four))).
Proof.
  intros pl env lim. unfold f_attr.
  eapply Snd_bind; [apply Snd_u32|]. intros t b1. cbv beta.
  eapply Snd_bind; [apply Snd_u32|]. intros s b2. cbv beta.
  destruct (attr_size_ok s) eqn:Hs; [|apply Snd_fail]. cbn [negb].
  eapply Snd_bind; [apply Snd_split|]. intros st b3. apply Snd_cfg.
  eapply Snd_conv; [apply (Snd_sub env lim (len (fst st))), (Snd_attr_fields pl)|].
  cbv beta. intros v bs rest (-> & H) (E3 & L3 & B3) (Hs2 & E2) (Ht & E1).
  rewrite <- E3 in B3, L3. destruct (H B3 (N.le_refl _)) as (d & unread & Ed & r2 & r3 & more & Et & Es & Hf & Hc & E4 & Hm).
  clear H. rewrite E3 in Ed. rewrite E3 in L3. cbn [app] in *. rewrite app_nil_r.
  assert (Hv : In s versions \/ 136 < s).
  { unfold attr_size_ok in Hs. apply orb_true_iff in Hs as [Hs|Hs].
    - left. apply existsb_exists in Hs as (x & Hx & E). apply N.eqb_eq in E. subst x. exact Hx.
    - right. now apply N.ltb_lt in Hs. }
  assert (Sv : attr_seen v = v) by (rewrite <- cut_seen; [exact Hc|now rewrite Es]).
  rewrite <- Et in Ht, E1. rewrite <- Es in Hs2, E2, L3, Hm, E4, Hv. clear Et Es t s Hs.
  subst b1 b2 d. rewrite Ed in L3 |- *. clear E3 Ed B3.
  assert (L : forall ext, (In (at_size v) versions /\ ext = [] \/ 136 < at_size v /\ len ext = at_size v - 136) ->
            attr_ok v r2 r3 ext /\
            w_attr (order_of pl (c_endian (fe_cfg env))) v r2 r3 ext =
              w32 (order_of pl (c_endian (fe_cfg env))) (at_type v) ++
              w32 (order_of pl (c_endian (fe_cfg env))) (at_size v) ++
              w_fields pl (mkEnv (fe_cfg env) eof_error) (at_size v) v r2 r3 ++ ext /\
            len (w_fields pl (mkEnv (fe_cfg env) eof_error) (at_size v) v r2 r3) + len ext + 8 = at_size v).
  { intros ext Hx. pose proof (Hf Ht Hs2 ext Hx) as Ok. split; [exact Ok|].
    pose proof (fields_eq _ _ _ _ _ Ok pl (fe_cfg env) eof_error eq_refl) as E. split; [exact E|].
    destruct (attr_size (order_of pl (c_endian (fe_cfg env))) _ _ _ _ Ok) as (_ & Le & _).
    rewrite E, !len_app, !w32_len in Le. lia. }
  destruct (N.ltb_spec 136 (at_size v)) as [Hl|Hl].
  - destruct Hm as [-> Hz]. rewrite app_nil_r in L3. rewrite !app_nil_r.
    set (ext := take (at_size v - 136) more).
    assert (Lm : len more = at_size v - 132).
    { destruct (L (repeat 0 (N.to_nat (at_size v - 136)))) as (_ & _ & Le).
      - right. split; [exact Hl|]. unfold len. rewrite repeat_length, N2Nat.id. reflexivity.
      - rewrite len_app in L3. unfold len at 2 in Le. rewrite repeat_length, N2Nat.id in Le. lia. }
    destruct (L ext) as (Ok & E & _); [right; split; [exact Hl|unfold ext; rewrite len_take; lia]|].
    exists r2, r3, ext, (drop (at_size v - 136) more). split; [exact Ok|]. split; [exact Sv|].
    split; [rewrite len_drop; lia|]. split.
    + rewrite E, <- !app_assoc. unfold ext. now rewrite take_drop.
    + right. unfold ext. rewrite take_drop. apply Forall_forall. intros x Hx.
      apply N.eqb_eq. exact (proj1 (forallb_forall _ _) Hz x Hx).
  - subst more. rewrite app_nil_r in *. destruct Hv as [Hv|Hv]; [|lia].
    destruct (L []) as (Ok & E & Le); [now left|]. rewrite app_nil_r in E. change (len (@nil N)) with 0 in Le.
    exists r2, r3, [], unread. split; [exact Ok|]. split; [exact Sv|].
    split; [rewrite len_app in L3; destruct (attr_size LE _ _ _ _ Ok); lia|]. split; [|now left].
    rewrite E, <- !app_assoc. reflexivity.
Qed.
