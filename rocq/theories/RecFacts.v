(** What any accepted record looks like, by the header's type and misc. *)
From Coq Require Import NArith List Bool Lia.
From Verif Require Import Base BaseFacts Types Platform Config Buf Parser Contract Flat Refine.
From Verif Require Import Instances Prims Slices Records Sample Record Attr Views RefRecords.
From Verif Require Import RefFrame RefTop Safe Wire Codec ConfFacts Roundtrip RtSample RtRecord.
From Verif Require Import Bits Spec NoHint FrameFacts RoundFacts.
Import ListNotations.
Open Scope N_scope.

(** What holds of a flat parser's results. *)
Definition post (env : fenv) {B : Type} (f : F B) (Q : B -> Prop) : Prop :=
  forall l pos, bytes l -> match f env l pos with FOk b l' _ _ => Q b /\ bytes l' | FErr _ _ _ _ => True end.

Lemma post_ret : forall env B (b : B) (Q : B -> Prop), Q b -> post env (fret b) Q.
Proof. intros env B b Q H l pos Hl. now split. Qed.
Lemma post_fail : forall env B e (Q : B -> Prop), post env (ffail e) Q.
Proof. intros env B e Q l pos Hl. exact I. Qed.
Lemma post_bind : forall env B D (m : F B) (k : B -> F D) Q R,
  post env m Q -> (forall b, Q b -> post env (k b) R) -> post env (fbind m k) R.
Proof.
  intros env B D m k Q R Hm Hk l pos Hl. unfold fbind. specialize (Hm l pos Hl).
  destruct (m env l pos) as [b l1 pos1 ev1|]; [|exact I]. destruct Hm as [Hb Hl1].
  specialize (Hk b Hb l1 pos1 Hl1). destruct (k b env l1 pos1); exact Hk.
Qed.
Lemma post_take : forall env n, post env (f_take n) (fun d => len d = n /\ bytes d).
Proof.
  intros env n l pos Hl. unfold f_take. destruct l as [|x t]; [exact I|].
  destruct (len (x :: t) <? n) eqn:E; [exact I|]. apply N.ltb_ge in E.
  split; [split; [rewrite len_take; lia|now apply bytes_take]|now apply bytes_drop].
Qed.
Lemma post_uint : forall pl env n, post env (f_uint pl n) (fun v => v < 256 ^ n).
Proof.
  intros pl env n. unfold f_uint. eapply post_bind; [apply post_take|]. intros d [Hd Hb] l pos Hl.
  unfold fbind, fcfg, fret. split; [|exact Hl]. rewrite <- Hd. now apply from_order_bound.
Qed.
Lemma post_cfg : forall env D (k : config -> F D) R, post env (k (fe_cfg env)) R ->
  post env (fbind fcfg k) R.
Proof.
  intros env D k R H l pos Hl. unfold fbind, fcfg. specialize (H l pos Hl).
  destruct (k (fe_cfg env) env l pos); exact H.
Qed.
Lemma post_rest : forall env, post env f_rest bytes.
Proof.
  intros env l pos Hl. unfold f_rest. destruct l; [exact I|].
  destruct (is_eof (fe_fin env)); [|exact I]. split; [exact Hl|constructor].
Qed.
Lemma post_any : forall env B (f : F B), post env f (fun _ => True) -> forall l pos b l' pos' ev,
  bytes l -> f env l pos = FOk b l' pos' ev -> bytes l'.
Proof. intros env B f H l pos b l' pos' ev Hl E. specialize (H l pos Hl). rewrite E in H. apply H. Qed.
Lemma post_string : forall env, post env f_string (fun _ => True).
Proof. intros env. eapply post_bind; [apply post_rest|]. intros b _. now apply post_ret. Qed.

Ltac post_step :=
  first [ apply post_ret | apply post_fail | apply post_cfg
        | eapply post_bind; [first [apply post_uint | apply post_take | apply post_string | apply post_rest]|intros ? ?] ].

Lemma land_bit : forall x k, negb (N.land x (2 ^ k) =? 0) = N.testbit x k.
Proof.
  intros x k. rewrite land_pow2. destruct (N.testbit x k); [|reflexivity].
  destruct (N.eqb_spec (2 ^ k) 0) as [E|E]; [|reflexivity].
  exfalso. revert E. apply N.pow_nonzero. discriminate.
Qed.

(** MMAP2 with a build id or without. *)
Definition detail_for (m : N) (d : mmap_detail) : Prop :=
  match d with
  | MdBuildId b n => N.testbit m 14 = true /\ len b = 20 /\ n <= 20
  | MdDefault _ _ _ _ => N.testbit m 14 = false
  end.

Lemma post_detail : forall pl env, post env (f_mmap_detail pl) (detail_for (misc (fe_cfg env))).
Proof.
  intros pl env. unfold f_mmap_detail. post_step.
  change MISC_MMAP_BUILD_ID with (2 ^ 14). rewrite land_bit.
  destruct (N.testbit (misc (fe_cfg env)) 14) eqn:E.
  - repeat post_step. destruct (20 <? b) eqn:El; [post_step|]. apply N.ltb_ge in El.
    post_step. cbn. destruct H2. auto.
  - repeat post_step. cbn. exact E.
Qed.

Lemma post_mmap2 : forall pl env, post env (f_mmap2 pl) (fun r => detail_for (misc (fe_cfg env)) (m2_detail r)).
Proof.
  intros pl env. unfold f_mmap2. do 5 post_step. eapply post_bind; [apply post_detail|]. intros d Hd.
  repeat post_step. exact Hd.
Qed.

Definition switch_for (m : N) (r : switch_cpu_wide) : Prop :=
  match r with SwOut _ _ => N.testbit m 13 = true | SwIn _ _ => N.testbit m 13 = false end.

Lemma post_switch : forall pl env, post env (f_switch_cpu_wide pl) (switch_for (misc (fe_cfg env))).
Proof.
  intros pl env. unfold f_switch_cpu_wide. repeat post_step.
  change MISC_SWITCH_OUT with (2 ^ 13). rewrite land_bit.
  destruct (N.testbit (misc (fe_cfg env)) 13) eqn:E; cbn; exact E.
Qed.

(** The body comes from the body parser under the header's misc. *)
Lemma record_body : forall pl env t m s l b md l' pos' ev,
  let o := order_of pl (c_endian (fe_cfg env)) in
  t < 2 ^ 32 -> m < 2 ^ 16 -> s < 2 ^ 16 -> bytes l ->
  f_record pl env (w_header o t m s ++ l) 0 = FOk (b, md) l' pos' ev ->
  md_ty md = t /\ md_misc md = m /\
  exists d pos1 l1 pos2 ev2, bytes d /\
    f_body pl t (mkEnv (with_misc (fe_cfg env) m) eof_error) d pos1 = FOk b l1 pos2 ev2.
Proof.
  intros pl env t m s l b md l' pos' ev o Ht Hm Hs Hl E.
  unfold f_record in E. unfold fbind in E at 1.
  destruct (Rt_header pl 0 false env t m s l 0 Ht Hm Hs) as (ev1 & E1 & _). fold o in E1. rewrite E1 in E.
  unfold f_record_with_header in E. unfold fbind in E at 1.
  pose proof (f_metadata_meta pl (mkHeader t m s) env l (0 + len (w_header o t m s))) as Hmeta.
  destruct (f_metadata_with_header pl (mkHeader t m s) env l (0 + len (w_header o t m s)))
    as [[st md'] l1 pos1 ev2|] eqn:Em; [|discriminate].
  cbn [snd h_type h_misc] in Hmeta. cbn [fst snd h_type h_misc] in E.
  unfold fbind, fcfg, f_sub in E. cbn [fst snd] in E.
  destruct (f_body pl t _ (fst st) (snd st)) as [b' l2 pos2 ev3|] eqn:Eb; [|discriminate].
  unfold fret in E. injection E as <- <- _ _ _.
  split; [apply Hmeta|]. split; [apply Hmeta|].
  exists (fst st), (snd st), l2, pos2, ev3. split; [|exact Eb].
  clear Eb E1 Hmeta. unfold f_metadata_with_header in Em. cbn [h_size h_type h_misc] in Em.
  assert (Hsp : forall n env l pos st l' pos' ev, bytes l -> f_split n env l pos = FOk st l' pos' ev ->
    bytes (fst st)).
  { clear. intros n env l pos st l' pos' ev Hl E. unfold f_split in E. destruct (n =? 0).
    - injection E as <- _ _ _. constructor.
    - pose proof (post_take env n l pos Hl) as H. destruct (f_take n env l pos); [|discriminate].
      injection E as <- _ _ _. apply H. }
  destruct (s <? 8); [discriminate|]. unfold fbind in Em at 1.
  destruct (f_split (s - 8) env l _) as [st0 l3 pos3 ev4|] eqn:E3; [|discriminate].
  apply Hsp in E3; [|exact Hl].
  destruct ((t =? 1) || (t =? 9)); [unfold fret in Em; injection Em as <- _ _ _ _; exact E3|].
  unfold fbind in Em at 1. unfold fcfg in Em at 1.
  destruct (s - 8 <? estimate_len (fe_cfg env)); [discriminate|].
  unfold f_sub in Em. unfold fbind at 1 in Em. unfold fbind at 1 in Em.
  destruct (f_split _ _ (fst st0) _) as [st1 l4 pos4 ev5|] eqn:E4; [|discriminate].
  apply Hsp in E4; [|exact E3].
  unfold fbind in Em. destruct (f_sample_id _ _ _ _); [|discriminate].
  unfold fret in Em. injection Em as <- _ _ _ _. exact E4.
Qed.

(** Types whose result does not depend on the kind of source. *)
Lemma evs_body_none : forall pl (C : config -> Prop) t, t <> 9 -> t <> 16 -> t <> 20 ->
  evs C (fun _ => False) (f_body pl t).
Proof.
  intros pl C t H9 H16 H20. unfold f_body.
  repeat match goal with
  | |- evs _ _ (if t =? ?k then _ else _) => destruct (N.eqb_spec t k); try contradiction
  end; apply evs_bind; try (intros; apply evs_ret).
  all: try (unfold f_mmap, f_lost, f_comm, f_exit, f_throttle, f_aux, f_itrace_start, f_lost_samples,
    f_switch_cpu_wide, f_ksymbol, f_bpf_event, f_cgroup, f_aux_output_hw_id; repeat evs_step; fail).
  - apply evs_read.
  - apply evs_mmap2.
Qed.

Section Any.
Context (pl : platform) (Hpl : pl_ok pl) {S : Type} (PB : parsebuf S) (mo : mode) (fin : perror).
Context (cap : N) (mem : memory).

Lemma record_any : forall O (V : visitor O) p t m s l a,
  let o := order_of pl (c_endian (p_cfg p)) in
  t < 2 ^ 32 -> m < 2 ^ 16 -> s < 2 ^ 16 -> t <> 9 -> t <> 16 -> t <> 20 ->
  source PB mo fin cap mem p (w_header o t m s ++ l) a ->
  match f_record pl (mkEnv (p_cfg p) fin) (w_header o t m s ++ l) 0 with
  | FOk (b, md) l' n _ =>
      exists bc p', parse_record pl PB V p = (deliver V bc md, p') /\ view_body bc = b /\
        ok_body mo mem pl bc /\ after PB mo fin cap mem p n l' a p'
  | FErr e l' n _ =>
      exists p', parse_record pl PB V p = (Err e, p') /\ after PB mo fin cap mem p n l' a p'
  end.
Proof.
  intros O V p t m s l a o Ht Hm Hs H9 H16 H20 (rep & HC & Hr & Hw).
  rewrite <- (N.add_0_r a) in Hr.
  pose proof (record_flat pl PB mo fin cap mem rep a HC Hpl O V p _ 0 Hr Hw) as H.
  assert (Hev : match f_record pl (mkEnv (p_cfg p) fin) (w_header o t m s ++ l) 0 with
                | FOk _ _ _ ev | FErr _ _ _ ev => ev = [] end).
  { unfold f_record. unfold fbind at 1.
    destruct (Rt_header pl 0 false (mkEnv (p_cfg p) fin) t m s l 0 Ht Hm Hs) as (ev1 & E1 & _).
    cbn [fe_cfg] in E1. fold o in E1. rewrite E1.
    assert (Hq : ev1 = []) by (eapply noev_ok; [apply noev_header|exact E1]). subst ev1.
    assert (He : evs (fun _ => True) (fun _ => False) (f_record_with_header pl (mkHeader t m s))).
    { unfold f_record_with_header. apply evs_bind; [apply evs_metadata; auto|]. intros r.
      apply evs_cfg_bind. intros c Hc. apply evs_bind; [|intros; apply evs_ret].
      apply evs_sub; [now apply evs_body_none|exact I]. }
    specialize (He (mkEnv (p_cfg p) fin) l (0 + len (w_header o t m s)) I).
    destruct (f_record_with_header _ _ _ _ _) as [b l2 pos2 ev2|e l2 pos2 ev2];
      (destruct ev2; [reflexivity|inversion He; contradiction]). }
  destruct (f_record pl _ _ 0) as [[b md] l' n ev|e l' n ev]; subst ev.
  - destruct (H ltac:(constructor)) as (bc & p' & E & Hv & Hb & Hst). exists bc, p'.
    split; [exact E|]. split; [exact Hv|]. split; [exact Hb|]. eapply step_after; eassumption.
  - destruct (H ltac:(constructor)) as (p' & E & Hst). exists p'.
    split; [exact E|]. eapply step_after; eassumption.
Qed.

End Any.
