(** What must hold of the settings when a sample or record has been read. *)
From Coq Require Import NArith List Bool Lia.
From Verif Require Import Base BaseFacts Types Platform Config Buf Parser Contract Flat Refine.
From Verif Require Import Instances Prims Slices Records Sample Record Attr Views RefRecords.
From Verif Require Import RefFrame RefTop Safe Wire Codec Bits ConfFacts Roundtrip RtSample RtRecord RtFail.
From Verif Require Import Spec NoHint FrameFacts RoundFacts Keep.
Import ListNotations.
Open Scope N_scope.

(** [Q] holds of what [m] returns under the configuration [c]. *)
Definition under (c : config) {S A : Type} (Q : A -> Prop) (m : M S A) : Prop :=
  forall p a p', p_cfg p = c -> m p = (Ok a, p') -> Q a.

Lemma under_true : forall c S A (m : M S A), under c (fun _ => True) m.
Proof. intros c S A m p a p' _ _. exact I. Qed.

Lemma under_ret : forall c S A (Q : A -> Prop) a, Q a -> under c Q (@ret S A a).
Proof. intros c S A Q a H p b p' _ E. injection E as <- _. exact H. Qed.

Lemma under_fail : forall c S A (Q : A -> Prop) e, under c Q (@fail S A e).
Proof. intros c S A Q e p b p' _ E. discriminate E. Qed.

Lemma under_bind : forall c S A B (P : A -> Prop) (Q : B -> Prop) (m : M S A) (k : A -> M S B),
  kept m -> under c P m -> (forall a, P a -> under c Q (k a)) -> under c Q (bind m k).
Proof.
  intros c S A B P Q m k Hk Hm H p b p' Hc E. apply bind_inv in E as (a & p1 & E1 & E2).
  eapply H; [eapply Hm; eassumption| |exact E2]. rewrite (kept_ok _ _ _ _ _ _ Hk E1). exact Hc.
Qed.

Lemma under_cfg : forall c S B (Q : B -> Prop) (k : config -> M S B),
  under c Q (k c) -> under c Q (bind get_cfg k).
Proof. intros c S B Q k H p b p' Hc E. unfold bind, get_cfg in E. rewrite Hc in E. eapply H; eassumption. Qed.

Lemma under_if : forall c S A b (m : M S A) (Q : A -> Prop), under c Q m ->
  under c (fun x => match x with Some v => b = true /\ Q v | None => b = false end) (parse_if b m).
Proof.
  intros c S A [] m Q H p a p' Hc E; cbn [parse_if] in E.
  - apply bind_inv in E as (v & p1 & E1 & E2). injection E2 as <- _. split; [reflexivity|]. eapply H; eassumption.
  - now injection E as <- _.
Qed.

Definition known (c : config) : Prop := difference (read_format c) RF_ALL = 0.

Lemma known_small : forall c w, configured c w -> known c -> known_format w.
Proof.
  intros c w (_ & E & _) H. unfold known_format. unfold known in H. rewrite E in H.
  destruct (N.eq_dec (ws_read_format w) 0) as [->|H0]; [reflexivity|].
  apply N.log2_lt_pow2; [lia|]. destruct (N.lt_ge_cases (N.log2 (ws_read_format w)) 5) as [Hl|Hl]; [exact Hl|].
  exfalso. apply (f_equal (fun x => N.testbit x (N.log2 (ws_read_format w)))) in H.
  unfold difference in H. rewrite N.ldiff_spec, N.bits_0, N.bit_log2 in H by exact H0.
  change RF_ALL with (N.ones 5) in H. rewrite N.ones_spec_high in H by exact Hl. discriminate.
Qed.

Section Under.
Context (pl : platform) {S : Type} (PB : parsebuf S) (c : config).

Lemma under_read_value : under c (fun _ => known c) (parse_read_value pl PB).
Proof.
  apply under_cfg. cbv zeta. destruct (contains _ _); [apply under_fail|].
  destruct (N.eqb_spec (difference (read_format c) RF_ALL) 0) as [E|E]; cbn [negb]; [|apply under_fail].
  intros p a p' _ _. exact E.
Qed.
Lemma under_read_group : under c (fun _ => known c) (parse_read_group pl PB).
Proof.
  apply under_cfg. cbv zeta. destruct (contains _ _); cbn [negb]; [|apply under_fail].
  destruct (N.eqb_spec (difference (read_format c) RF_ALL) 0) as [E|E]; cbn [negb]; [|apply under_fail].
  intros p a p' _ _. exact E.
Qed.
Lemma under_sample_read : under c (fun _ => known c) (parse_sample_read pl PB).
Proof.
  apply under_cfg. destruct (contains _ _); [apply under_read_group|].
  eapply under_bind; [apply kept_read_value|apply under_read_value|]. intros v Hv. now apply under_ret.
Qed.
Lemma under_read : under c (fun _ => known c) (parse_read pl PB).
Proof.
  unfold parse_read.
  eapply under_bind; [apply kept_u32|apply under_true|intros ? _].
  eapply under_bind; [apply kept_u32|apply under_true|intros ? _].
  eapply under_bind; [apply kept_read_value|apply under_read_value|intros ? H]. now apply under_ret.
Qed.

Definition sample_cond (s : sample cow) : Prop :=
  (s_values s <> None -> known c) /\ (s_weight s <> None -> contains (sample_type c) SF_WEIGHT = true).

Ltac one L := eapply under_bind; [apply kept_if, L|apply under_if, under_true|]; intros ? _.

Lemma under_sample : under c sample_cond (parse_sample pl PB).
Proof.
  unfold parse_sample. apply under_cfg. cbv zeta.
  do 2 one kept_u64. do 2 one kept_u32. do 4 one kept_u64.
  eapply under_bind; [apply kept_if|apply under_true|intros ? _].
  { apply kept_bind; [apply kept_u32|intros ?]. apply kept_bind; [apply kept_u32|intros ?]. apply kept_ret. }
  one kept_u64.
  eapply under_bind; [apply kept_if, kept_sample_read|apply under_if, under_sample_read|intros v Hv].
  one kept_callchain. one kept_raw. one kept_lbr. one kept_registers. one kept_stack_user.
  eapply under_bind; [apply kept_if, kept_u64|apply under_if, under_true|intros wt Hwt].
  do 2 one kept_u64. one kept_registers. do 4 one kept_u64. one kept_sample_aux.
  apply under_ret. unfold sample_cond. cbn [s_values s_weight]. split.
  - destruct v; [intros _; apply Hv|congruence].
  - destruct wt; [intros _; apply Hwt|congruence].
Qed.

Definition body_cond (b : body cow) : Prop :=
  match b with BSample s => sample_cond s | BRead _ => known c | _ => True end.

Lemma under_body : forall t, under c body_cond (parse_body pl PB t).
Proof.
  intros t p b p' Hc E. unfold parse_body in E.
  repeat match type of E with
  | (if ?x then _ else _) _ = _ =>
      destruct x; [apply bind_inv in E as (r & p1 & E1 & E2); injection E2 as <- _; cbn [body_cond];
        try exact I; first [exact (under_read p r p1 Hc E1)|exact (under_sample p r p1 Hc E1)]|]
  end.
  apply bind_inv in E as (r & p1 & E1 & E2). injection E2 as <- _. exact I.
Qed.
End Under.

Lemma split_cfg : forall S (PB : parsebuf S) n p q p', split_at PB n p = (Ok q, p') -> p_cfg q = p_cfg p.
Proof.
  intros S PB n p q p'. pose proof (kept_cursor PB n) as Hk. unfold split_at.
  revert Hk. generalize (cursor_new PB n). intros m Hk E.
  apply bind_inv in E as (x & p1 & E1 & E2). apply (kept_ok _ _ _ _ _ _ Hk) in E1. rewrite <- E1.
  unfold bind, get_cfg, ret in E2. injection E2 as <- _. reflexivity.
Qed.

Lemma metadata_cfg : forall pl S (PB : parsebuf S) h p q md p',
  parse_metadata_with_header pl PB h p = (Ok (q, md), p') ->
  p_cfg q = p_cfg p /\ md_misc md = h_misc h /\ md_ty md = h_type h.
Proof.
  intros pl S PB h p q md p' E. unfold parse_metadata_with_header in E.
  destruct (checked_sub (h_size h) 8) as [n|]; [|discriminate].
  apply bind_inv in E as (rp & p2 & E1 & E). apply split_cfg in E1.
  destruct (_ || _); [injection E as <- <- _; cbn; auto|].
  destruct (checked_sub _ _); [|discriminate].
  apply bind_inv in E as ([r si] & p3 & E2 & E). injection E as <- <- _. cbn [fst md_misc md_ty new_metadata].
  apply sub_ok in E2 as (q' & E2). apply bind_inv in E2 as (r' & p4 & E2 & E3). apply split_cfg in E2.
  apply bind_inv in E3 as (si' & p5 & _ & E4). injection E4 as <- _ _. split; [congruence|auto].
Qed.

(** A record that has been read was read under the parser's configuration, with the
    header's misc. *)
Lemma collect_cond : forall pl S (PB : parsebuf S) p b md p',
  collect pl PB p = (Ok (b, md), p') -> body_cond (with_misc (p_cfg p) (md_misc md)) b.
Proof.
  intros pl S PB p b md p' E. unfold collect in E. apply bind_inv in E as (h & p1 & E1 & E).
  apply (kept_ok _ _ _ _ _ _ (kept_header pl PB)) in E1.
  unfold collect_with_header in E. apply bind_inv in E as ([q md1] & p2 & E2 & E).
  apply metadata_cfg in E2 as (E2 & E3 & E4).
  destruct (cursor_as_slice (p_buf q)); apply bind_inv in E as (b1 & p3 & E5 & E6);
    injection E6 as <- <- _; apply sub_ok in E5 as (q' & E5);
    refine (under_body _ _ _ _ _ _ _ _ E5); cbn [new_parser p_cfg]; now rewrite E2, E1.
Qed.

(** * Failing reads *)

Section Fails.
Context (pl : platform) {S : Type} (PB : parsebuf S) (mo : mode) (fin : perror) (cap : N)
  (mem : memory).

Lemma fails_aligned : forall A B (R : A -> B -> Prop) (m : M S A) (f : F B) p bs a,
  (forall rep, contract PB mo fin cap mem rep -> Ref mo fin cap rep a R m f) ->
  Rf 0 (poke_of mo) (mkEnv (p_cfg p) fin) f bs 0 -> evs (fun _ => True) (own pl) f ->
  lends_aligned pl mo a ->
  source PB mo fin cap mem p bs a -> exists p', m p = (Err fin, p').
Proof.
  intros A B R m f p bs a HR (l' & n & ev & E & Hev) Ho Hal (rep & HC & Hr & Hw).
  specialize (Ho (mkEnv (p_cfg p) fin) bs 0 I). rewrite E in Ho.
  assert (Hok : Forall (ev_ok mo a) ev) by now apply (fine_ok pl).
  destruct (run_err mo fin cap rep _ _ _ _ _ _ _ _ _ _ _ _ (HR rep HC) Hr Hw E Hok) as (p' & Ep & _).
  exists p'. exact Ep.
Qed.

Lemma fails_evs : forall A B (R : A -> B -> Prop) (m : M S A) (f : F B) a0 poke p bs a,
  (forall rep, contract PB mo fin cap mem rep -> Ref mo fin cap rep a R m f) ->
  evs (fun c => c_endian c = c_endian (p_cfg p)) (fun _ => False) f ->
  Rf a0 poke (mkEnv (p_cfg p) fin) f bs 0 ->
  source PB mo fin cap mem p bs a -> exists p', m p = (Err fin, p').
Proof.
  intros A B R m f a0 poke p bs a HR Hn (l' & n & ev & E & _) (rep & HC & Hr & Hw).
  specialize (Hn (mkEnv (p_cfg p) fin) bs 0 eq_refl). rewrite E in Hn.
  destruct ev as [|e ev]; [|inversion Hn; contradiction].
  destruct (run_err mo fin cap rep _ _ _ _ _ _ _ _ _ _ _ _ (HR rep HC) Hr Hw E ltac:(constructor)) as (p' & Ep & _).
  exists p'. exact Ep.
Qed.

Lemma record_fails : pl_ok pl -> forall O (V : visitor O) w p m si b rest a,
  let o := order_of pl (c_endian (p_cfg p)) in
  configured (p_cfg p) w -> m < 2 ^ 16 -> sample_id_ok w si -> wbody_ok w m b ->
  ends_empty (pl_host pl) o w b -> len (w_record o w m si b) < 2 ^ 16 ->
  lends_fine pl mo (p_cfg p) a b ->
  source PB mo fin cap mem p (w_record o w m si b ++ rest) a ->
  fst (parse_record pl PB V p) = Err eof_error.
Proof.
  intros Hpl O V w p m si b rest a o Hcf Hm Hsi Hok He Hlen Hf (rep & HC & Hrep & Hw).
  destruct (Rf_record pl Hpl 0 (poke_of mo) (mkEnv (p_cfg p) fin) w Hcf m si b rest 0)
    as (n & ev & E & Hfine); try assumption; [reflexivity|]. cbn [fe_cfg] in E. fold o in E.
  pose proof (record_events pl mo fin w p m si b rest a Hm Hok Hlen Hf) as Hevok. cbv zeta in Hevok. fold o in Hevok.
  rewrite E in Hevok. cbn [events] in Hevok.
  rewrite <- (N.add_0_r a) in Hrep.
  pose proof (record_flat pl PB mo fin cap mem rep a HC Hpl O V p _ 0 Hrep Hw) as H.
  rewrite E in H.
  destruct (H (Hevok Hfine)) as (p' & E' & _). now rewrite E'.
Qed.

Definition with_name (r : mmap list) (f : list N) : mmap list :=
  mkMmap (mm_pid r) (mm_tid r) (mm_addr r) (mm_len r) (mm_pgoff r) f.

Lemma mmap_reads : pl_ok pl -> forall O (V : visitor O) w p m si r k rest a,
  let o := order_of pl (c_endian (p_cfg p)) in
  m < 2 ^ 16 -> wbody_ok w m (WMmap r k) -> len (w_record o w m si (WMmap r k)) < 2 ^ 16 ->
  source PB mo fin cap mem p (w_record o w m si (WMmap r k) ++ rest) a ->
  exists c p', parse_record pl PB V p = (deliver V (BMmap c) (mkMeta 1 m sample_id_default), p') /\
    view_mmap c = with_name r (strip (w_str (mm_filename r) k ++ w_sample_id o w si)).
Proof.
  intros Hpl O V w p m si r k rest a o Hm Hok Hlen (rep & HC & Hrep & Hw).
  assert (Hrt : Rt 0 (poke_of mo) (mkEnv (p_cfg p) fin) (f_record pl)
      (w_record o w m si (WMmap r k))
      (BMmap (with_name r (strip (w_str (mm_filename r) k ++ w_sample_id o w si))),
       mkMeta 1 m sample_id_default) rest 0).
  { now apply (Rt_record_mmap pl 0 (poke_of mo) (mkEnv (p_cfg p) fin) w). }
  destruct Hrt as (ev & E & Hfine). rewrite N.add_0_l in E.
  pose proof (record_events pl mo fin w p m si (WMmap r k) rest a Hm Hok Hlen) as Hevok. cbv zeta in Hevok. fold o in Hevok.
  rewrite E in Hevok. cbn [events] in Hevok.
  rewrite <- (N.add_0_r a) in Hrep.
  pose proof (record_flat pl PB mo fin cap mem rep a HC Hpl O V p _ 0 Hrep Hw) as H.
  rewrite E in H.
  destruct (H (Hevok ltac:(right; left; exact I) Hfine)) as (bc & p' & E' & Hv & _).
  destruct bc; try discriminate. exists r0, p'. split; [exact E'|]. cbn [view_body] in Hv. congruence.
Qed.
End Fails.

(** * Decidability *)

Lemma followed_dec : forall l rest, followed l rest \/ ~ followed l rest.
Proof.
  intros l rest. induction l as [|[d b] t [IH|IH]]; [now left| |right; intros [_ H]; exact (IH H)].
  destruct b; [|left; split; [discriminate|exact IH]].
  destruct (concat (map fst t) ++ rest) as [|x y] eqn:E.
  - right. intros [H _]. now apply H.
  - left. split; [|exact IH]. cbn [fst]. rewrite E. discriminate.
Qed.
