(** Exactly the record is taken from the source, whatever becomes of it. *)
From Coq Require Import NArith List Bool Lia.
From Verif Require Import Base BaseFacts Types Platform Config Buf Parser Contract Flat Refine.
From Verif Require Import Instances Prims Slices Records Sample Record Attr Views RefRecords.
From Verif Require Import RefFrame RefTop Safe Wire Codec ConfFacts Roundtrip RtRecord Spec.
Import ListNotations.
Open Scope N_scope.

(** A computation that leaves the source alone. *)
Definition still {S A : Type} (m : M S A) : Prop :=
  forall p, p_buf (snd (m p)) = p_buf p /\ p_off (snd (m p)) = p_off p /\
            p_cfg (snd (m p)) = p_cfg p.

Lemma still_ret : forall S A (a : A), @still S A (ret a).
Proof. intros S A a p; auto. Qed.
Lemma still_fail : forall S A e, @still S A (fail e).
Proof. intros S A e p; auto. Qed.
Lemma still_lift : forall S A o, @still S A (lift o).
Proof. intros S A o p; auto. Qed.
Lemma still_sub : forall S S2 A (m : M S2 A) q, @still S A (sub m q).
Proof. intros S S2 A m q p. unfold sub. destruct (m q); auto. Qed.
Lemma still_bind : forall S A B (m : M S A) (k : A -> M S B),
  still m -> (forall a, still (k a)) -> still (bind m k).
Proof.
  intros S A B m k Hm Hk p. unfold bind. specialize (Hm p).
  destruct (m p) as [[a|e| |] p1]; cbn [snd] in *; try exact Hm.
  destruct (Hk a p1) as (H1 & H2 & H3). destruct Hm as (H4 & H5 & H6).
  repeat split; congruence.
Qed.

Lemma bind_assoc : forall S A B C (m : M S A) (f : A -> M S B) (g : B -> M S C) p,
  bind (bind m f) g p = bind m (fun x => bind (f x) g) p.
Proof. intros. unfold bind. destruct (m p) as [[]]; reflexivity. Qed.

Lemma split_exact : forall S (PB : parsebuf S) mo fin cap mem rep, contract PB mo fin cap mem rep ->
  forall n p l a, rep (p_buf p) l a -> wf l -> n <= len l ->
  exists q p', split_at PB n p = (Ok q, p') /\ rep (p_buf p') (drop n l) (a + n) /\
    p_cfg p' = p_cfg p /\ p_off p' = p_off p + n /\
    cursor_rep mo n mem (p_buf q) (take n l) a /\ p_cfg q = p_cfg p /\ p_off q = 0 /\ p_log q = [].
Proof.
  intros S PB mo fin cap mem rep HC n p l a Hr Hw Hn.
  assert (Hr0 : rep (p_buf p) l (a + 0)) by now rewrite N.add_0_r.
  pose proof (split_spec PB mo fin cap mem rep a HC n p l 0 Hr0 Hw) as H.
  assert (E : f_split n (mkEnv (p_cfg p) fin) l 0 = FOk (take n l, 0) (drop n l) n []).
  { unfold f_split, f_take. destruct (N.eqb_spec n 0) as [->|Hn0].
    - now rewrite take_0, drop_0.
    - destruct l as [|b l]; [rewrite len_nil in Hn; lia|].
      replace (len (b :: l) <? n) with false by (symmetry; apply N.ltb_ge; exact Hn).
      reflexivity. }
  rewrite E in H.
  destruct H as (q & p' & E1 & Hq & Hs & H1 & H2 & H3 & H4 & H5 & H6).
  exists q, p'. split; [exact E1|].
  pose proof (st_rep _ _ _ _ _ _ _ _ _ Hs) as Hr'.
  destruct (st_len _ _ _ _ _ _ _ _ _ Hs) as (k & Hk & El & En & Eo).
  assert (k = n) by lia. subst k.
  split; [exact Hr'|]. split; [apply (st_cfg _ _ _ _ _ _ _ _ _ Hs)|]. split; [exact Eo|].
  destruct Hq as (Ec & Eq & Elog & Eof & Elen & Hwq & Hrep). cbn [fst snd] in *.
  rewrite N.add_0_r in Hrep. auto.
Qed.

(** Flat parsers that leave no events. *)
Definition noev {B : Type} (f : F B) : Prop :=
  forall env l pos, match f env l pos with FOk _ _ _ ev | FErr _ _ _ ev => ev = [] end.

Lemma noev_ret : forall B (b : B), noev (fret b).
Proof. intros B b env l pos; reflexivity. Qed.
Lemma noev_fail : forall B e, @noev B (ffail e).
Proof. intros B e env l pos; reflexivity. Qed.
Lemma noev_cfg : noev fcfg.
Proof. intros env l pos; reflexivity. Qed.
Lemma noev_bind : forall B C (m : F B) (k : B -> F C),
  noev m -> (forall b, noev (k b)) -> noev (fbind m k).
Proof.
  intros B C m k Hm Hk env l pos. unfold fbind. specialize (Hm env l pos).
  destruct (m env l pos) as [b l1 pos1 ev1|]; [|exact Hm]. specialize (Hk b env l1 pos1).
  destruct (k b env l1 pos1); subst; reflexivity.
Qed.
Lemma noev_take : forall n, noev (f_take n).
Proof. intros n env [|b l] pos; [reflexivity|]. unfold f_take. destruct (_ <? _); reflexivity. Qed.
Lemma noev_uint : forall pl n, noev (f_uint pl n).
Proof.
  intros pl n. apply noev_bind; [apply noev_take|]. intros l.
  apply noev_bind; [apply noev_cfg|]. intros c. apply noev_ret.
Qed.
Lemma noev_if : forall B b (m : F B), noev m -> noev (f_if b m).
Proof.
  intros B [] m H; unfold f_if; [|apply noev_ret].
  apply noev_bind; [exact H|]. intros x; apply noev_ret.
Qed.
Lemma noev_rest : noev f_rest.
Proof. intros env [|b l] pos; [reflexivity|]. unfold f_rest. destruct (is_eof _); reflexivity. Qed.
Lemma noev_string : noev f_string.
Proof. apply noev_bind; [apply noev_rest|]. intros l; apply noev_ret. Qed.
Lemma noev_skip : forall n, noev (f_skip n).
Proof.
  intros n. unfold f_skip. destruct (n =? 0); [apply noev_ret|].
  apply noev_bind; [apply noev_take|]. intros l; apply noev_ret.
Qed.

Ltac quiet_step :=
  first [ apply noev_ret | apply noev_fail | apply noev_cfg | apply noev_uint | apply noev_take
        | apply noev_if | apply noev_rest | apply noev_string | apply noev_skip
        | apply noev_bind; [|intros ?] ].

Lemma noev_header : forall pl, noev (f_header pl).
Proof. intros pl. unfold f_header. repeat quiet_step. Qed.

Lemma noev_sample_id : forall pl, noev (f_sample_id pl).
Proof.
  intros pl. unfold f_sample_id. apply noev_bind; [apply noev_cfg|]. intros c.
  destruct (negb _); [apply noev_ret|]. repeat quiet_step.
Qed.

Lemma noev_ok : forall B (f : F B) env l pos b l' pos' ev,
  noev f -> f env l pos = FOk b l' pos' ev -> ev = [].
Proof. intros B f env l pos b l' pos' ev H E. specialize (H env l pos). now rewrite E in H. Qed.

Section Frame.
Context (pl : platform) {S : Type} (PB : parsebuf S) (mo : mode) (fin : perror) (cap : N)
  (mem : memory) (rep : S -> list N -> N -> Prop).
Context (HC : contract PB mo fin cap mem rep).

(** Running a refined parser from position 0. *)
Lemma run_ok : forall A B (R : A -> B -> Prop) (m : M S A) (f : F B) p l a b l' n ev,
  Ref mo fin cap rep a R m f -> rep (p_buf p) l a -> wf l ->
  f (mkEnv (p_cfg p) fin) l 0 = FOk b l' n ev -> Forall (ev_ok mo a) ev ->
  exists v p', m p = (Ok v, p') /\ R v b /\ step cap rep a p l 0 p' l' n.
Proof.
  intros A B R m f p l a b l' n ev HR Hr Hw E Hev.
  specialize (HR p l 0). rewrite N.add_0_r in HR. specialize (HR Hr Hw). rewrite E in HR. auto.
Qed.

Lemma run_err : forall A B (R : A -> B -> Prop) (m : M S A) (f : F B) p l a e l' n ev,
  Ref mo fin cap rep a R m f -> rep (p_buf p) l a -> wf l ->
  f (mkEnv (p_cfg p) fin) l 0 = FErr e l' n ev -> Forall (ev_ok mo a) ev ->
  exists p', m p = (Err e, p') /\ step cap rep a p l 0 p' l' n.
Proof.
  intros A B R m f p l a e l' n ev HR Hr Hw E Hev.
  specialize (HR p l 0). rewrite N.add_0_r in HR. specialize (HR Hr Hw). rewrite E in HR. auto.
Qed.

Lemma header_exact : forall p t m s rest a,
  let o := order_of pl (c_endian (p_cfg p)) in
  t < 2 ^ 32 -> m < 2 ^ 16 -> s < 2 ^ 16 ->
  rep (p_buf p) (w_header o t m s ++ rest) a -> wf (w_header o t m s ++ rest) ->
  exists p', parse_header pl PB p = (Ok (mkHeader t m s), p') /\
    rep (p_buf p') rest (a + 8) /\ p_cfg p' = p_cfg p /\ p_off p' = p_off p + 8.
Proof.
  intros p t m s rest a o Ht Hm Hs Hr Hw.
  destruct (Rt_header pl a false (mkEnv (p_cfg p) fin) t m s rest 0 Ht Hm Hs) as (ev & E & Hev).
  cbn [fe_cfg] in E. fold o in E. rewrite w_header_len, N.add_0_l in E.
  assert (Hq : ev = []).
  { eapply noev_ok; [apply noev_header|exact E]. }
  subst ev.
  destruct (run_ok _ _ _ _ _ _ _ _ _ _ _ _ (Ref_header pl PB mo fin cap mem rep a HC) Hr Hw E ltac:(constructor))
    as (v & p' & Ep & -> & Hst).
  exists p'. split; [exact Ep|].
  destruct (st_len _ _ _ _ _ _ _ _ _ Hst) as (k & Hk & El & En & Eo).
  split; [apply (st_rep _ _ _ _ _ _ _ _ _ Hst)|].
  split; [apply (st_cfg _ _ _ _ _ _ _ _ _ Hst)|]. lia.
Qed.


Lemma still_after_split : forall h,
  8 <= h_size h ->
  exists k, (forall q, still (k q)) /\
  forall p, collect_with_header pl PB h p = bind (split_at PB (h_size h - 8)) k p.
Proof.
  intros h Hh. unfold collect_with_header, parse_metadata_with_header, checked_sub.
  apply N.leb_le in Hh. rewrite Hh.
  exists (fun rp =>
    bind (if (h_type h =? PERF_RECORD_MMAP) || (h_type h =? PERF_RECORD_SAMPLE)
          then ret (rp, new_metadata h sample_id_default)
          else
            match (if estimate_len (p_cfg rp) <=? h_size h - 8
                   then Some (h_size h - 8 - estimate_len (p_cfg rp)) else None) with
            | None => fail (custom_error KInvalidRecord MsgNoRoomForSampleId)
            | Some remaining_len =>
                r <- sub (p <- split_at cursor_buf remaining_len ;;
                          si <- parse_sample_id pl cursor_buf ;;
                          ret (p, si)) rp ;;
                ret (fst r, new_metadata h (snd r))
            end)
     (fun r => let '(p, md) := r in
       match cursor_as_slice (p_buf p) with
       | Some data =>
           b <- sub (parse_body pl slice_buf (md_ty md)) (new_parser data (with_misc (p_cfg p) (md_misc md))) ;;
           ret (b, md)
       | None =>
           b <- sub (parse_body pl cursor_buf (md_ty md))
                  (new_parser (p_buf p) (with_misc (p_cfg p) (md_misc md))) ;;
           ret (b, md)
       end)).
  split.
  - intros q. apply still_bind.
    + destruct (_ || _); [apply still_ret|]. destruct (estimate_len (p_cfg q) <=? h_size h - 8); [|apply still_fail].
      apply still_bind; [apply still_sub|intros; apply still_ret].
    + intros [p md]. destruct (cursor_as_slice (p_buf p));
        (apply still_bind; [apply still_sub|intros; apply still_ret]).
  - intros p. apply bind_assoc.
Qed.

(** Exactly the record. *)
Lemma collect_exact : forall p t m payload rest a,
  let o := order_of pl (c_endian (p_cfg p)) in
  let s := 8 + len payload in
  t < 2 ^ 32 -> m < 2 ^ 16 -> s < 2 ^ 16 ->
  rep (p_buf p) (w_header o t m s ++ payload ++ rest) a ->
  wf (w_header o t m s ++ payload ++ rest) ->
  exists r (p' : parser S), collect pl PB p = (r, p') /\
    rep (p_buf p') rest (a + s) /\ p_cfg p' = p_cfg p /\ p_off p' = p_off p + s.
Proof.
  intros p t m payload rest a o s Ht Hm Hs Hr Hw.
  destruct (header_exact p t m s (payload ++ rest) a Ht Hm Hs Hr Hw) as (p1 & E1 & Hr1 & Hc1 & Ho1).
  unfold collect. unfold bind at 1. rewrite E1.
  destruct (still_after_split (mkHeader t m s)) as (k & Hk & Ek); [cbn [h_size]; unfold s; lia|].
  rewrite Ek. cbn [h_size].
  assert (Hw1 : wf (payload ++ rest)).
  { apply (wf_drop 8) in Hw. rewrite drop_app_exact in Hw by now rewrite w_header_len. exact Hw. }
  destruct (split_exact S PB mo fin cap mem rep HC (s - 8) p1 (payload ++ rest) (a + 8) Hr1 Hw1)
    as (q & p2 & E2 & Hr2 & Hc2 & Ho2 & _).
  { rewrite len_app. unfold s. lia. }
  unfold bind. rewrite E2. destruct (Hk q p2) as (G1 & G2 & G3).
  destruct (k q p2) as [r p3]. cbn [snd] in *.
  exists r, p3. split; [reflexivity|]. split.
  - rewrite G1. replace (s - 8) with (len payload) in Hr2 by (unfold s; lia).
    rewrite drop_app_exact in Hr2 by reflexivity.
    replace (a + s) with (a + 8 + len payload) by (unfold s; lia). exact Hr2.
  - split; [congruence|]. rewrite G2, Ho2, Ho1. unfold s. lia.
Qed.

(** The trailer of a record. *)
Lemma sample_id_exact : forall p w si rest a,
  let o := order_of pl (c_endian (p_cfg p)) in
  configured (p_cfg p) w -> sample_id_ok w si ->
  rep (p_buf p) (w_sample_id o w si ++ rest) a -> wf (w_sample_id o w si ++ rest) ->
  exists p', parse_sample_id pl PB p = (Ok si, p') /\
    rep (p_buf p') rest (a + len (w_sample_id o w si)) /\ p_cfg p' = p_cfg p /\
    p_off p' = p_off p + len (w_sample_id o w si).
Proof.
  intros p w si rest a o Hcf Hsi Hr Hw.
  destruct (Rt_sample_id pl a false (mkEnv (p_cfg p) fin) w Hcf si rest 0 Hsi) as (ev & E & Hev).
  cbn [fe_cfg] in E. fold o in E. rewrite N.add_0_l in E.
  assert (Hq : ev = []) by (eapply noev_ok; [apply noev_sample_id|exact E]). subst ev.
  destruct (run_ok _ _ _ _ _ _ _ _ _ _ _ _ (Ref_sample_id pl PB mo fin cap mem rep a HC) Hr Hw E ltac:(constructor))
    as (v & p' & Ep & -> & Hst).
  exists p'. split; [exact Ep|].
  destruct (st_len _ _ _ _ _ _ _ _ _ Hst) as (k & Hk & El & En & Eo).
  split; [apply (st_rep _ _ _ _ _ _ _ _ _ Hst)|].
  split; [apply (st_cfg _ _ _ _ _ _ _ _ _ Hst)|]. lia.
Qed.

End Frame.

Lemma wf_app_l : forall l r, wf (l ++ r) -> wf l.
Proof. intros l r H. apply (wf_take (len l)) in H. now rewrite take_app_exact in H. Qed.
Lemma wf_app_r : forall l r, wf (l ++ r) -> wf r.
Proof. intros l r H. apply (wf_drop (len l)) in H. now rewrite drop_app_exact in H. Qed.

Section Meta.
Context (pl : platform) {S : Type} (PB : parsebuf S) (mo : mode) (fin : perror) (cap : N)
  (mem : memory) (rep : S -> list N -> N -> Prop).
Context (HC : contract PB mo fin cap mem rep).

Lemma metadata_exact : forall p w t m si body rest a,
  let o := order_of pl (c_endian (p_cfg p)) in
  let tr := w_sample_id o w si in
  let s := 8 + len body + len tr in
  configured (p_cfg p) w -> sample_id_ok w si ->
  t <> 1 -> t <> 9 -> t < 2 ^ 32 -> m < 2 ^ 16 -> s < 2 ^ 16 ->
  rep (p_buf p) (w_header o t m s ++ body ++ tr ++ rest) a ->
  wf (w_header o t m s ++ body ++ tr ++ rest) ->
  exists q p', parse_metadata pl PB p = (Ok (q, mkMeta t m si), p') /\
    cursor_rep mo (len body + len tr) mem (p_buf q) body (a + 8) /\
    p_cfg q = p_cfg p /\ p_off q = 0 /\
    rep (p_buf p') rest (a + s) /\ p_cfg p' = p_cfg p /\ p_off p' = p_off p + s.
Proof.
  intros p w t m si body rest a o tr s Hcf Hsi H1 H9 Ht Hm Hs Hr Hw.
  destruct (header_exact pl PB mo fin cap mem rep HC p t m s (body ++ tr ++ rest) a Ht Hm Hs Hr Hw)
    as (p1 & E1 & Hr1 & Hc1 & Ho1).
  apply wf_app_r in Hw.
  unfold parse_metadata. unfold bind at 1. rewrite E1.
  unfold parse_metadata_with_header, checked_sub. cbn [h_size h_type h_misc].
  replace (8 <=? s) with true by (symmetry; apply N.leb_le; unfold s; lia).
  rewrite app_assoc in Hr1, Hw.
  destruct (split_exact S PB mo fin cap mem rep HC (s - 8) p1 ((body ++ tr) ++ rest) (a + 8) Hr1 Hw)
    as (q & p2 & E2 & Hr2 & Hc2 & Ho2 & Hq & Hqc & Hqo & Hql).
  { rewrite !len_app. unfold s. lia. }
  unfold bind at 1. rewrite E2.
  replace ((t =? PERF_RECORD_MMAP) || (t =? PERF_RECORD_SAMPLE)) with false.
  2:{ symmetry. unfold PERF_RECORD_MMAP, PERF_RECORD_SAMPLE.
      apply orb_false_iff; split; now apply N.eqb_neq. }
  assert (Elen : len tr = estimate_len (p_cfg q)).
  { unfold tr. rewrite Hqc, Hc1. now apply sample_id_len. }
  rewrite <- Elen. replace (len tr <=? s - 8) with true by (symmetry; apply N.leb_le; unfold s; lia).
  replace (s - 8) with (len (body ++ tr)) in * by (rewrite len_app; unfold s; lia).
  rewrite take_app_exact in Hq by reflexivity. rewrite drop_app_exact in Hr2 by reflexivity.
  replace (len (body ++ tr) - len tr) with (len body) by (rewrite len_app; lia).
  pose proof (wf_app_l _ _ Hw) as Hw2.
  destruct (split_exact cursor cursor_buf mo eof_error _ mem _ (cursor_contract mo _ mem)
              (len body) q (body ++ tr) (a + 8) Hq Hw2)
    as (q2 & q3 & E3 & Hr3 & Hc3 & Ho3 & Hq2 & Hq2c & Hq2o & Hq2l).
  { rewrite len_app. lia. }
  rewrite take_app_exact in Hq2 by reflexivity. rewrite drop_app_exact in Hr3 by reflexivity.
  assert (E4 : exists q4, parse_sample_id pl cursor_buf q3 = (Ok si, q4)).
  { assert (Eo : order_of pl (c_endian (p_cfg q3)) = o) by (now rewrite Hc3, Hqc, Hc1).
    destruct (sample_id_exact pl cursor_buf mo eof_error _ mem _
                (cursor_contract mo (len (body ++ tr)) mem) q3 w si [] (a + 8 + len body)) as (q4 & E4 & _).
    - now rewrite Hc3, Hqc, Hc1.
    - exact Hsi.
    - rewrite Eo, app_nil_r. exact Hr3.
    - rewrite Eo, app_nil_r. now apply wf_app_r in Hw2.
    - now exists q4. }
  destruct E4 as [q4 E4].
  unfold sub, bind. rewrite E3, E4. cbn [ret fst snd].
  eexists q2, _. split; [reflexivity|]. cbn [p_buf p_cfg p_off].
  split; [eapply cursor_rep_mono; [|exact Hq2]; lia|].
  split; [congruence|]. split; [exact Hq2o|].
  split; [|split; [congruence|]].
  - replace (a + s) with (a + 8 + len (body ++ tr)) by (rewrite len_app; unfold s; lia). exact Hr2.
  - rewrite Ho2, Ho1, len_app. unfold s. lia.
Qed.

(** MMAP and SAMPLE: no trailer. *)
Lemma metadata_whole : forall p t m body rest a,
  let o := order_of pl (c_endian (p_cfg p)) in
  let s := 8 + len body in
  t = 1 \/ t = 9 -> m < 2 ^ 16 -> s < 2 ^ 16 ->
  rep (p_buf p) (w_header o t m s ++ body ++ rest) a ->
  wf (w_header o t m s ++ body ++ rest) ->
  exists q p', parse_metadata pl PB p = (Ok (q, mkMeta t m sample_id_default), p') /\
    cursor_rep mo (len body) mem (p_buf q) body (a + 8) /\
    p_cfg q = p_cfg p /\ p_off q = 0 /\
    rep (p_buf p') rest (a + s) /\ p_cfg p' = p_cfg p /\ p_off p' = p_off p + s.
Proof.
  intros p t m body rest a o s Ht Hm Hs Hr Hw.
  assert (Ht' : t < 2 ^ 32) by (destruct Ht; subst; reflexivity).
  destruct (header_exact pl PB mo fin cap mem rep HC p t m s (body ++ rest) a Ht' Hm Hs Hr Hw)
    as (p1 & E1 & Hr1 & Hc1 & Ho1).
  apply wf_app_r in Hw.
  unfold parse_metadata. unfold bind at 1. rewrite E1.
  unfold parse_metadata_with_header, checked_sub. cbn [h_size h_type h_misc].
  replace (8 <=? s) with true by (symmetry; apply N.leb_le; unfold s; lia).
  destruct (split_exact S PB mo fin cap mem rep HC (s - 8) p1 (body ++ rest) (a + 8) Hr1 Hw)
    as (q & p2 & E2 & Hr2 & Hc2 & Ho2 & Hq & Hqc & Hqo & Hql).
  { rewrite !len_app. unfold s. lia. }
  unfold bind at 1. rewrite E2.
  replace ((t =? PERF_RECORD_MMAP) || (t =? PERF_RECORD_SAMPLE)) with true
    by (destruct Ht; subst; reflexivity).
  replace (s - 8) with (len body) in * by (unfold s; lia).
  rewrite take_app_exact in Hq by reflexivity. rewrite drop_app_exact in Hr2 by reflexivity.
  exists q, p2. split; [reflexivity|]. split; [exact Hq|]. split; [congruence|]. split; [exact Hqo|].
  split; [|split; [congruence|rewrite Ho2, Ho1; unfold s; lia]].
  replace (a + s) with (a + 8 + len body) by (unfold s; lia). exact Hr2.
Qed.

End Meta.

(** * What a record is delivered as *)

(** The numbers of PERF_RECORD_* (uapi 872-1205) and what a visitor is given for them.  [None]:
    any other number. *)
Definition body_kind {F : Type -> Type} (b : body F) : option N :=
  match b with
  | BMmap _ => Some 1 | BLost _ => Some 2 | BComm _ => Some 3 | BExit _ => Some 4
  | BThrottle _ => Some 5 | BUnthrottle _ => Some 6 | BFork _ => Some 7 | BRead _ => Some 8
  | BSample _ => Some 9 | BMmap2 _ => Some 10 | BAux _ => Some 11 | BItraceStart _ => Some 12
  | BLostSamples _ => Some 13 | BSwitch => Some 14 | BSwitchCpuWide _ => Some 15
  | BNamespaces _ => Some 16 | BKsymbol _ => Some 17 | BBpfEvent _ => Some 18
  | BCgroup _ => Some 19 | BTextPoke _ => Some 20 | BAuxOutputHwId _ => Some 21
  | BUnknown _ => None
  end.

Definition kind_ok {F : Type -> Type} (t : N) (b : body F) : Prop :=
  match body_kind b with
  | Some k => t = k
  | None => t = 0 \/ t = 14 \/ 21 < t
  end.

Lemma bind_ok : forall S A B (m : M S A) (k : A -> M S B) p b p',
  bind m k p = (Ok b, p') -> exists a p1, m p = (Ok a, p1) /\ k a p1 = (Ok b, p').
Proof.
  intros S A B m k p b p' H. unfold bind in H. destruct (m p) as [[a|e| |] p1]; try discriminate.
  eauto.
Qed.

Lemma body_kind_ok : forall pl S (PB : parsebuf S) t p b p',
  parse_body pl PB t p = (Ok b, p') -> kind_ok t b.
Proof.
  intros pl S PB t p b p'. unfold parse_body.
  repeat match goal with
  | |- (if ?x =? ?y then _ else _) _ = _ -> _ =>
      destruct (N.eqb_spec x y) as [->|?];
      [intros H; apply bind_ok in H as (r & p1 & _ & H); injection H as <- _; reflexivity|]
  end.
  intros H; apply bind_ok in H as (r & p1 & _ & H); injection H as <- _. cbn. lia.
Qed.

Lemma sub_ok : forall S S2 A (m : M S2 A) q (p : parser S) a p',
  sub m q p = (Ok a, p') -> exists q', m q = (Ok a, q').
Proof. intros S S2 A m q p a p' H. unfold sub in H. destruct (m q) as [r q']. injection H as -> _. eauto. Qed.

Lemma collect_kind : forall pl S (PB : parsebuf S) h p b md p',
  collect_with_header pl PB h p = (Ok (b, md), p') ->
  md_ty md = h_type h /\ md_misc md = h_misc h /\ kind_ok (h_type h) b.
Proof.
  intros pl S PB h p b md p' H. unfold collect_with_header in H.
  apply bind_ok in H as ([q md1] & p1 & H1 & H2).
  assert (G : md_ty md1 = h_type h /\ md_misc md1 = h_misc h).
  { unfold parse_metadata_with_header in H1.
    destruct (checked_sub (h_size h) 8) as [n|]; [|discriminate].
    apply bind_ok in H1 as (rp & p2 & _ & H1).
    destruct (_ || _); [injection H1 as _ <- _; cbn; auto|].
    destruct (checked_sub _ _); [|discriminate].
    apply bind_ok in H1 as (r & p3 & _ & H1). injection H1 as _ <- _. cbn; auto. }
  destruct (cursor_as_slice (p_buf q)); apply bind_ok in H2 as (b1 & p2 & H2 & H3);
    injection H3 as <- <- _; apply sub_ok in H2 as (q' & H2); apply body_kind_ok in H2;
    destruct G as [G1 G2]; rewrite G1 in H2; auto.
Qed.

(** Records of an unknown type leave no events. *)
Lemma noev_split : forall n, noev (f_split n).
Proof.
  intros n env l pos. unfold f_split. destruct (n =? 0); [reflexivity|].
  pose proof (noev_take n env l pos) as H. destruct (f_take n env l pos); exact H.
Qed.

Lemma noev_sub : forall B (m : F B) cfg st, noev m -> noev (f_sub m cfg st).
Proof.
  intros B m cfg st H env l pos. unfold f_sub. specialize (H (mkEnv cfg eof_error) (fst st) (snd st)).
  destruct (m _ (fst st) (snd st)); exact H.
Qed.

Lemma noev_metadata_with_header : forall pl h, noev (f_metadata_with_header pl h).
Proof.
  intros pl h. unfold f_metadata_with_header. destruct (_ <? _); [apply noev_fail|].
  apply noev_bind; [apply noev_split|]. intros st. destruct (_ || _); [apply noev_ret|].
  apply noev_bind; [apply noev_cfg|]. intros c. destruct (_ <? _); [apply noev_fail|].
  apply noev_bind; [|intros ?; apply noev_ret]. apply noev_sub.
  apply noev_bind; [apply noev_split|]. intros b.
  apply noev_bind; [apply noev_sample_id|]. intros si. apply noev_ret.
Qed.

Lemma noev_body : forall pl t,
  t <> 8 -> t <> 9 -> t <> 16 -> t <> 20 -> t <> 10 -> t <> 15 -> noev (f_body pl t).
Proof.
  intros pl t H8 H9 H16 H20 H10 H15. unfold f_body.
  repeat match goal with
  | |- noev (if ?x =? ?y then _ else _) => destruct (N.eqb_spec x y); [try congruence|]
  end; (apply noev_bind; [|intros ?; apply noev_ret]).
  all: try apply noev_rest.
  all: repeat (unfold f_mmap, f_lost, f_comm, f_exit, f_throttle, f_aux, f_itrace_start, f_lost_samples,
    f_ksymbol, f_bpf_event, f_cgroup, f_aux_output_hw_id; quiet_step).
Qed.

Lemma noev_record_with_header : forall pl h, noev (f_body pl (h_type h)) ->
  noev (f_record_with_header pl h).
Proof.
  intros pl h H. unfold f_record_with_header.
  apply noev_bind; [apply noev_metadata_with_header|]. intros r.
  apply noev_bind; [apply noev_cfg|]. intros c.
  apply noev_bind; [now apply noev_sub|]. intros b. apply noev_ret.
Qed.

Lemma unknown_noev : forall pl env t m size rest x l' n ev,
  t = 0 \/ 21 < t -> t < 2 ^ 32 -> m < 2 ^ 16 -> size < 2 ^ 16 ->
  f_record pl env (w_header (order_of pl (c_endian (fe_cfg env))) t m size ++ rest) 0 = FOk x l' n ev ->
  ev = [].
Proof.
  intros pl env t m size rest x l' n ev Ht Ht' Hm Hs E.
  unfold f_record in E. unfold fbind at 1 in E.
  destruct (Rt_header pl 0 false env t m size rest 0 Ht' Hm Hs) as (ev1 & E1 & _).
  rewrite E1 in E. assert (ev1 = []) by (eapply noev_ok; [apply noev_header|exact E1]). subst ev1.
  assert (Hb : noev (f_record_with_header pl (mkHeader t m size))).
  { apply noev_record_with_header. cbn [h_type]. apply noev_body; lia. }
  specialize (Hb env rest (0 + len (w_header (order_of pl (c_endian (fe_cfg env))) t m size))).
  destruct (f_record_with_header _ _ _ _ _) as [? ? ? ev2|]; [|discriminate].
  subst ev2. injection E as _ _ _ <-. reflexivity.
Qed.
