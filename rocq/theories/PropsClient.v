(** Theorems: programs of clients of the parser (C70), records read by hand (C71). *)
From Coq Require Import NArith List Bool Lia.
From Verif Require Import Base BaseFacts Types Platform Config Buf Parser Contract Flat Refine.
From Verif Require Import Instances Prims Records Sample Record Attr Views RefFrame RefTop Wire Codec Roundtrip RtRecord.
From Verif Require Import Spec ConfFacts NoHint FrameFacts SameFacts Copied Placed Client ClientFacts ClientSafe ExData PropsFrame PropsSame.
Import ListNotations.
Open Scope N_scope.

(** ** C70: every program ends on every source, with a value or an error, within the bytes there
    are, the configuration as it was, and no single reservation above the bound of the source. *)
Theorem C70_ends :
  forall pl A (m : prog A) S (PB : parsebuf S) mo fin cap mem p l a,
  pl_ok pl -> cap <= isize_max pl -> source PB mo fin cap mem p l a ->
  exists r n new p', match r with Ok _ | Err _ => True | Panic | Fuel => False end /\
    run pl m S PB p = (r, p') /\ moved PB mo fin cap mem l a p n p' /\
    p_log p' = new ++ p_log p /\ Forall (fun k => k <= N.max cap 65536) new.
Proof.
  intros pl A m S PB mo fin cap mem p l a Hpl Hcap (rep & HC & Hr & Hw).
  pose proof (record_cap pl Hpl).
  assert (HC' : contract PB mo fin (N.max cap 65536) mem rep) by (eapply contract_mono; [exact HC|lia]).
  rewrite <- (N.add_0_r a) in Hr.
  destruct (run_halts pl Hpl A m S PB mo fin _ mem rep a HC' ltac:(lia) ltac:(lia) p l 0 Hr Hw)
    as (r & p' & l' & n & E & Hd & _ & Hs).
  destruct (st_log _ _ _ _ _ _ _ _ _ Hs) as (new & El & Hn).
  exists r, n, new, p'. split; [exact Hd|]. split; [exact E|]. split; [eapply step_moved; eassumption|auto].
Qed.

(** A program does the same on two sources of the same bytes which end with the same error, and
    takes equally many bytes. *)
Theorem C70_same :
  forall pl c l fin A (m : prog A) S1 (PB1 : parsebuf S1) mo1 cap1 mem1 p1 a1
    S2 (PB2 : parsebuf S2) mo2 cap2 mem2 p2 a2,
  pl_ok pl -> cap1 <= isize_max pl -> cap2 <= isize_max pl -> alike pl m mo1 a1 mo2 a2 ->
  p_cfg p1 = c -> p_cfg p2 = c ->
  source PB1 mo1 fin cap1 mem1 p1 l a1 -> source PB2 mo2 fin cap2 mem2 p2 l a2 ->
  exists n r p1' p2', match r with Ok _ | Err _ => True | Panic | Fuel => False end /\
    run pl m S1 PB1 p1 = (r, p1') /\ run pl m S2 PB2 p2 = (r, p2') /\
    moved PB1 mo1 fin cap1 mem1 l a1 p1 n p1' /\ moved PB2 mo2 fin cap2 mem2 l a2 p2 n p2'.
Proof.
  intros pl c l fin A m S1 PB1 mo1 cap1 mem1 p1 a1 S2 PB2 mo2 cap2 mem2 p2 a2 Hpl H1 H2 Hm E1 E2 Hs1 Hs2.
  destruct (alike_runs pl A m _ _ _ _ Hpl Hm) as (fs & fb & _ & R1 & R2).
  specialize (R1 _ _ _ _ _ _ _ H1 Hs1). rewrite E1 in R1.
  specialize (R2 _ _ _ _ _ _ _ H2 Hs2). rewrite E2 in R2.
  destruct (flat_by pl fs fb m (mkEnv c fin) l 0) as [x l' n ev|e l' n ev];
    destruct R1 as (_ & p1' & R1 & M1), R2 as (_ & p2' & R2 & M2).
  - exists n, (Ok x), p1', p2'. auto.
  - exists n, (Err e), p1', p2'. auto.
Qed.

(** [alike] is needed: the first word of two, from memory that is not aligned and from a reader. *)
Theorem C70_alike_needed :
  let l := w64 LE 7 ++ w64 LE 8 in
  source slice_buf Whole eof_error (len l) (memory_of 4097 l) (on_slice 4097 l ex_cfg) l 4097 /\
  source bufreader_buf NoExt eof_error 16384 (fun _ => 0) (reader_of [l] ex_cfg) l 0 /\
  fst (run pl64 (PSlice 1) slice slice_buf (on_slice 4097 l ex_cfg)) = Ok [8] /\
  fst (run pl64 (PSlice 1) bufreader bufreader_buf (reader_of [l] ex_cfg)) = Ok [7].
Proof.
  cbv zeta. split; [|split; [|split; vm_compute; reflexivity]].
  - apply slice_source; [vm_compute; repeat constructor|reflexivity|apply N.le_refl|apply memory_of_at].
  - apply (reader_source [] [w64 LE 7 ++ w64 LE 8] None); try (vm_compute; congruence); repeat constructor; discriminate.
Qed.

(** Whatever a program does with the parser it gets for a record, and however that ends, the
    outer parser is past the record, and only there: any program, any source. *)
Theorem C70_frame :
  forall pl A (k : metadata -> prog A) h S (PB : parsebuf S) mo fin cap mem p l a,
  pl_ok pl -> cap <= isize_max pl -> source PB mo fin cap mem p l a ->
  8 <= h_size h < 2 ^ 16 -> h_size h - 8 <= len l ->
  exists r p', match r with Ok _ | Err _ => True | Panic | Fuel => False end /\
    run pl (PMetadata h k) S PB p = (r, p') /\ moved PB mo fin cap mem l a p (h_size h - 8) p'.
Proof.
  intros pl A k h S PB mo fin cap mem p l a Hpl Hcap (rep & HC & Hr & Hw) Hh Hl.
  pose proof (record_cap pl Hpl).
  assert (HC' : contract PB mo fin (N.max cap 65536) mem rep) by (eapply contract_mono; [exact HC|lia]).
  rewrite <- (N.add_0_r a) in Hr.
  destruct (metadata_halts pl Hpl A k S PB mo fin (N.max cap 65536) mem rep a h HC' ltac:(lia) ltac:(lia))
    with (p := p) (l := l) (pos := 0) as (r & p' & l' & n & E & Hd & Hs & Hn); try assumption.
  - intros md. eapply run_halts; [exact Hpl|apply cursor_contract|lia|lia].
  - specialize (Hn Hh Hl). rewrite N.add_0_l in Hn. subst n.
    exists r, p'. split; [exact Hd|]. split; [exact E|]. eapply step_moved; eassumption.
Qed.

(** The same when the program catches what comes of it. *)
Theorem C70_caught :
  forall pl A (k : metadata -> prog A) h S (PB : parsebuf S) mo fin cap mem p l a,
  pl_ok pl -> cap <= isize_max pl -> source PB mo fin cap mem p l a ->
  8 <= h_size h < 2 ^ 16 -> h_size h - 8 <= len l ->
  exists r p', run pl (PTry (PMetadata h k)) S PB p = (Ok r, p') /\ moved PB mo fin cap mem l a p (h_size h - 8) p'.
Proof.
  intros pl A k h S PB mo fin cap mem p l a Hpl Hcap Hs Hh Hl.
  destruct (C70_frame pl A k h S PB mo fin cap mem p l a Hpl Hcap Hs Hh Hl) as (r & p' & Hr & R & M).
  change (run pl (PTry (PMetadata h k)) S PB p) with
    (match run pl (PMetadata h k) S PB p with
     | (Ok a, p') => (Ok (inr a), p') | (Err e, p') => (Ok (inl e), p')
     | (Panic, p') => (Panic, p') | (Fuel, p') => (Fuel, p') end).
  rewrite R. destruct r; try contradiction; eauto.
Qed.

(** And what comes of it depends on the record's bytes alone: not on what follows them, not on
    how the source ends. *)
Theorem C70_local :
  forall pl c A (k : metadata -> prog A) h r x1 x2 S1 (PB1 : parsebuf S1) mo1 fin1 cap1 mem1 p1 a1
    S2 (PB2 : parsebuf S2) mo2 fin2 cap2 mem2 p2 a2,
  pl_ok pl -> cap1 <= isize_max pl -> cap2 <= isize_max pl -> alike pl (PMetadata h k) mo1 a1 mo2 a2 ->
  p_cfg p1 = c -> p_cfg p2 = c -> h_size h = 8 + len r -> h_size h < 2 ^ 16 ->
  source PB1 mo1 fin1 cap1 mem1 p1 (r ++ x1) a1 -> source PB2 mo2 fin2 cap2 mem2 p2 (r ++ x2) a2 ->
  fst (run pl (PMetadata h k) S1 PB1 p1) = fst (run pl (PMetadata h k) S2 PB2 p2).
Proof.
  intros pl c A k h r x1 x2 S1 PB1 mo1 fin1 cap1 mem1 p1 a1 S2 PB2 mo2 fin2 cap2 mem2 p2 a2
    Hpl H1 H2 Hk E1 E2 Hr Hh Hs1 Hs2.
  destruct (alike_runs pl A _ _ _ _ _ Hpl Hk) as (fs & fb & _ & G1 & G2).
  specialize (G1 _ _ _ _ _ _ _ H1 Hs1). rewrite E1 in G1.
  specialize (G2 _ _ _ _ _ _ _ H2 Hs2). rewrite E2 in G2.
  pose proof (metadata_local pl fs fb A k h c fin1 fin2 r x1 x2 0 Hh ltac:(lia)) as E.
  destruct (flat_by pl fs fb (PMetadata h k) (mkEnv c fin1) _ 0), (flat_by pl fs fb (PMetadata h k) (mkEnv c fin2) _ 0);
    cbn [same_out] in E; try contradiction; destruct E as (<- & _);
    destruct G1 as (_ & p1' & R1 & M1), G2 as (_ & p2' & R2 & M2); rewrite R1, R2; reflexivity.
Qed.

(** Outside of records: a program which asks for nothing that depends on where the bytes end
    gives what it gave when more bytes follow, and takes the same. *)
Theorem C70_more :
  forall pl c A (m : prog A) l x v S1 (PB1 : parsebuf S1) mo1 fin1 cap1 mem1 p1 a1 p1'
    S2 (PB2 : parsebuf S2) mo2 fin2 cap2 mem2 p2 a2,
  pl_ok pl -> cap1 <= isize_max pl -> cap2 <= isize_max pl -> alike pl m mo1 a1 mo2 a2 -> settled m ->
  p_cfg p1 = c -> p_cfg p2 = c ->
  source PB1 mo1 fin1 cap1 mem1 p1 l a1 -> source PB2 mo2 fin2 cap2 mem2 p2 (l ++ x) a2 ->
  run pl m S1 PB1 p1 = (Ok v, p1') ->
  exists n p2', run pl m S2 PB2 p2 = (Ok v, p2') /\
    moved PB1 mo1 fin1 cap1 mem1 l a1 p1 n p1' /\ moved PB2 mo2 fin2 cap2 mem2 (l ++ x) a2 p2 n p2'.
Proof.
  intros pl c A m l x v S1 PB1 mo1 fin1 cap1 mem1 p1 a1 p1' S2 PB2 mo2 fin2 cap2 mem2 p2 a2
    Hpl H1 H2 Hm Hset E1 E2 Hs1 Hs2 R.
  destruct (alike_runs pl A m _ _ _ _ Hpl Hm) as (fs & fb & Hg & G1 & G2).
  specialize (G1 _ _ _ _ _ _ _ H1 Hs1). rewrite E1 in G1.
  specialize (G2 _ _ _ _ _ _ _ H2 Hs2). rewrite E2 in G2.
  pose proof (grows_settled pl fs fb A m Hg Hset c fin1 fin2 l x 0) as E.
  destruct (flat_by pl fs fb m (mkEnv c fin1) l 0) as [y l' n ev|e l' n ev];
    destruct G1 as (_ & q & R1 & M1); rewrite R1 in R; [|discriminate].
  rewrite (E _ _ _ _ eq_refl) in G2. destruct G2 as (_ & p2' & R2 & M2).
  injection R as <- <-. exists n, p2'. auto.
Qed.

(** The custom sample of the documentation, any values of its fields, with anything after them
    in the record. *)
Definition w_custom (o : order) (s : custom_sample) : list N :=
  w64 o (cs_ip s) ++ w32 o (cs_pid s) ++ w32 o (cs_tid s) ++ w64 o (len (cs_callstack s)) ++
  concat (map (w64 o) (cs_callstack s)) ++ w64 o (cs_cgroup s).
Definition custom_ok (s : custom_sample) : Prop :=
  cs_ip s < 2 ^ 64 /\ cs_pid s < 2 ^ 32 /\ cs_tid s < 2 ^ 32 /\ Forall (fun x => x < 2 ^ 64) (cs_callstack s) /\
  cs_cgroup s < 2 ^ 64.

Lemma Rt_repeat64 : forall pl env vs rest pos, Forall (fun x => x < 2 ^ 64) vs ->
  Rt 0 true env (f_repeat (length vs) (f_uint pl 8))
    (concat (map (w64 (order_of pl (c_endian (fe_cfg env)))) vs)) vs rest pos.
Proof.
  intros pl env vs rest. induction vs as [|v vs IH]; intros pos H; cbn [length f_repeat map concat].
  - apply Rt_ret.
  - inversion H; subst. eapply Rt_bind; [apply Rt_u64; assumption|].
    eapply Rt_last; [apply IH; assumption|]. apply Rt_ret.
Qed.

Lemma Rt_custom : forall pl env s rest pos, pl_ok pl -> custom_ok s -> len (cs_callstack s) < 2 ^ 32 ->
  Rt 0 true env (flat pl parse_custom) (w_custom (order_of pl (c_endian (fe_cfg env))) s) s rest pos.
Proof.
  intros pl env [ip pid tid cs cg] rest pos Hpl (H1 & H2 & H3 & H4 & H5) Hlen. cbn [cs_ip cs_pid cs_tid cs_callstack cs_cgroup] in *.
  unfold parse_custom, w_custom. cbn [flat cs_ip cs_pid cs_tid cs_callstack cs_cgroup].
  eapply Rt_bind; [now apply Rt_u64|]. eapply Rt_bind; [now apply Rt_u32|]. eapply Rt_bind; [now apply Rt_u32|].
  eapply Rt_bind; [apply Rt_u64; eapply N.lt_trans; [exact Hlen|reflexivity]|].
  replace (N.to_nat (as_usize pl (len cs))) with (length cs).
  2:{ unfold as_usize. rewrite N.mod_small; [unfold len; lia|].
      destruct Hpl as [E|E]; rewrite E; [exact Hlen|eapply N.lt_trans; [exact Hlen|reflexivity]]. }
  eapply Rt_bind; [now apply Rt_repeat64|]. eapply Rt_last; [now apply Rt_u64|]. apply Rt_ret.
Qed.

Lemma w64s_len : forall o vs, len (concat (map (w64 o) vs)) = 8 * len vs.
Proof.
  intros o vs. induction vs as [|v vs IH]; [reflexivity|].
  cbn [map concat]. rewrite len_app, w64_len, IH, len_cons. lia.
Qed.

Lemma header_flat : forall pl env t m s rest, t < 2 ^ 32 -> m < 2 ^ 16 -> s < 2 ^ 16 ->
  f_header pl env (w_header (order_of pl (c_endian (fe_cfg env))) t m s ++ rest) 0 =
  FOk (mkHeader t m s) rest 8 [].
Proof.
  intros pl env t m s rest Ht Hm Hs.
  destruct (Rt_header pl 0 false env t m s rest 0 Ht Hm Hs) as (ev & E & _).
  pose proof (noev_header pl env (w_header (order_of pl (c_endian (fe_cfg env))) t m s ++ rest) 0) as Hev.
  rewrite E in Hev. subst ev. rewrite E, w_header_len. reflexivity.
Qed.

Lemma header_of_same : forall t m s, t < 2 ^ 32 -> m < 2 ^ 16 -> s < 2 ^ 16 ->
  header_of (mkHeader t m s) = mkHeader t m s.
Proof. intros t m s Ht Hm Hs. unfold header_of. cbn [h_type h_misc h_size]. now rewrite !N.mod_small. Qed.

Theorem C70_custom :
  forall pl s misc slack rest S (PB : parsebuf S) mo fin cap mem p a,
  let o := order_of pl (c_endian (p_cfg p)) in
  let size := 8 + len (w_custom o s ++ slack) in
  pl_ok pl -> cap <= isize_max pl -> custom_ok s -> misc < 2 ^ 16 -> size < 2 ^ 16 ->
  source PB mo fin cap mem p (w_header o 9 misc size ++ w_custom o s ++ slack ++ rest) a ->
  exists p', run pl custom_example S PB p = (Ok (9, s), p') /\ after PB mo fin cap mem p size rest a p'.
Proof.
  intros pl s misc slack rest S PB mo fin cap mem p a o size Hpl Hcap Hok Hm Hsz Hs.
  assert (Hcalm : calm custom_example) by (cbn; repeat split; auto).
  pose proof (run_flat pl _ custom_example _ _ _ _ _ _ _ _ _ Hpl Hcap Hcalm Hs) as G.
  set (env := mkEnv (p_cfg p) fin) in *.
  assert (Ef : exists ev, flat pl custom_example env (w_header o 9 misc size ++ w_custom o s ++ slack ++ rest) 0 =
    FOk (9, s) rest size ev).
  { change (flat pl custom_example) with
      (h <~ f_header pl ;;
       r <~ f_metadata_with_header pl (header_of h) ;; c <~ fcfg ;;
       f_sub (x <~ flat pl parse_custom ;; fret (md_ty (snd r), x)) c (fst r)).
    unfold fbind at 1. unfold o at 1. change (p_cfg p) with (fe_cfg env).
    rewrite header_flat by (assumption || reflexivity). cbv beta iota.
    rewrite header_of_same by (assumption || reflexivity).
    unfold f_metadata_with_header. cbn [h_size h_type h_misc].
    replace (size <? 8) with false by (symmetry; apply N.ltb_ge; unfold size; lia).
    unfold fbind at 1, fbind at 1. rewrite app_assoc.
    replace (size - 8) with (len (w_custom o s ++ slack)) by (unfold size; lia).
    rewrite split_app_1 by lia. rewrite take_all, drop_all by lia.
    change ((9 =? 1) || (9 =? 9)) with true. cbv iota. unfold fret at 1, fbind at 1, fcfg. cbn [fst snd md_ty].
    unfold f_sub. cbn [fst snd].
    assert (Hl : len (cs_callstack s) < 2 ^ 32).
    { unfold size in Hsz. rewrite len_app in Hsz. unfold w_custom in Hsz. rewrite !len_app, w64s_len in Hsz.
      eapply N.lt_trans with (2 ^ 16); [|reflexivity]. lia. }
    destruct (Rt_custom pl (mkEnv (fe_cfg env) eof_error) s slack 8 Hpl Hok Hl) as (ev & E & _).
    cbn [fe_cfg env] in E. fold o in E. unfold fbind, fret. cbn [fe_cfg env]. rewrite E.
    eexists. cbn [app]. reflexivity. }
  destruct Ef as [ev Ef]. rewrite Ef in G. destruct G as (El & p' & R & M).
  exists p'. split; [exact R|]. destruct M as (_ & M & Mc & Mo). rewrite <- El in M. repeat split; assumption.
Qed.

(** ** C71: records read by hand *)

(** The parts of a record, taken with the calls there are for clients: [parse_metadata], then
    [parse] for the type which goes with the record. *)
Definition by_hand : prog (body list * metadata) :=
  parse_metadata_p (fun md => b <-- PBody (md_ty md) ;;; PRet (b, md))%prog.

Lemma by_hand_flat : forall pl fs fb env t m size rest,
  let o := order_of pl (c_endian (fe_cfg env)) in
  t < 2 ^ 32 -> m < 2 ^ 16 -> size < 2 ^ 16 -> misc_free (fe_cfg env) m (fb t) ->
  flat_by pl fs fb by_hand env (w_header o t m size ++ rest) 0 =
  (h <~ f_header pl ;; f_record_by pl fb h) env (w_header o t m size ++ rest) 0.
Proof.
  intros pl fs fb env t m size rest o Ht Hm Hz Hf.
  change (flat_by pl fs fb by_hand) with
    (h <~ f_header pl ;;
     r <~ f_metadata_with_header pl (header_of h) ;; c <~ fcfg ;;
     f_sub (x <~ fb (md_ty (snd r)) ;; fret (x, snd r)) c (fst r)).
  unfold fbind at 1 5. unfold o. rewrite header_flat by assumption. cbv beta iota.
  rewrite header_of_same by assumption. unfold f_record_by, fbind at 1 4.
  pose proof (f_metadata_meta pl (mkHeader t m size) env rest 8) as Hmd.
  destruct (f_metadata_with_header pl (mkHeader t m size) env rest 8) as [r l1 pos1 ev1|]; [|reflexivity].
  destruct Hmd as [Ety _]. cbn [h_type h_misc] in Ety |- *. rewrite Ety.
  unfold fbind, fcfg, f_sub. rewrite Hf.
  destruct (fb t (mkEnv (fe_cfg env) eof_error) (fst (fst r)) (snd (fst r))); reflexivity.
Qed.

Theorem C71_by_hand_partial :
  forall pl S (PB : parsebuf S) mo fin cap mem p t m size rest a,
  let o := order_of pl (c_endian (p_cfg p)) in
  let l := w_header o t m size ++ rest in
  pl_ok pl -> cap <= isize_max pl -> t < 2 ^ 32 -> m < 2 ^ 16 -> size < 2 ^ 16 ->
  source PB mo fin cap mem p l a -> (mo = NoExt \/ mo = Whole \/ tame pl (p_cfg p) mo a l) ->
  (t = 10 -> N.testbit (misc (p_cfg p)) 14 = N.testbit m 14) ->
  (t = 15 -> N.testbit (misc (p_cfg p)) 13 = N.testbit m 13) ->
  exists r n p1 p2, gives pl PB p r p1 /\
    run pl by_hand S PB p =
      (match r with inl e => Err e | inr (b, md) => Ok (view_body b, md) end, p2) /\
    moved PB mo fin cap mem l a p n p1 /\ moved PB mo fin cap mem l a p n p2.
Proof.
  intros pl S PB mo fin cap mem p t m size rest a o l Hpl Hcap Ht Hm Hz Hs Hmode H10 H15.
  assert (Hag : misc_agrees (p_cfg p) m t) by (split; assumption).
  set (env := mkEnv (p_cfg p) fin).
  destruct Hmode as [->|[->|Htame]].
  - pose proof (gives_copied pl S PB fin cap mem p l a Hpl Hs) as G1.
    pose proof (run_copied pl _ by_hand S PB fin cap mem p l a Hpl Hcap Hs) as G2. fold env in G1, G2.
    unfold l, o in G2. change (p_cfg p) with (fe_cfg env) in G2.
    rewrite by_hand_flat in G2 by (try assumption; now apply mf_copied).
    change (h <~ f_header pl ;; f_record_by pl (f_body_copied pl) h) with (f_record_copied pl) in G2.
    change (fe_cfg env) with (p_cfg p) in G2. fold o in G2. fold l in G2.
    destruct (f_record_copied pl env l 0) as [[b md] l' n ev|e l' n ev].
    + destruct G1 as (bc & p1 & R1 & <- & M1), G2 as (_ & p2 & R2 & M2).
      exists (inr (bc, md)), n, p1, p2. auto.
    + destruct G1 as (p1 & R1 & M1), G2 as (_ & p2 & R2 & M2).
      exists (inl e), n, p1, p2. auto.
  - pose proof (gives_whole pl S PB fin cap mem p l a a Hpl Hs eq_refl) as G1.
    pose proof (run_placed pl _ by_hand S PB fin cap mem p l a a Hpl Hcap Hs eq_refl) as G2. fold env in G1, G2.
    unfold l, o in G2. change (p_cfg p) with (fe_cfg env) in G2.
    rewrite by_hand_flat in G2 by (try assumption; now apply mf_placed).
    change (h <~ f_header pl ;; f_record_by pl (g_body pl (bad_at pl a)) h) with (g_record pl (bad_at pl a)) in G2.
    change (fe_cfg env) with (p_cfg p) in G2. fold o in G2. fold l in G2.
    destruct (g_record pl (bad_at pl a) env l 0) as [[b md] l' n ev|e l' n ev].
    + destruct G1 as (bc & p1 & R1 & <- & M1), G2 as (_ & p2 & R2 & M2).
      exists (inr (bc, md)), n, p1, p2. auto.
    + destruct G1 as (p1 & R1 & M1), G2 as (_ & p2 & R2 & M2).
      exists (inl e), n, p1, p2. auto.
  - pose proof (gives_flat pl S PB mo fin cap mem p l a Hpl Hs Htame) as G1.
    pose proof (record_events pl mo a (mkEnv (p_cfg p) fin) l Htame) as Hev.
    pose proof (run_events pl _ by_hand S PB mo fin cap mem p l a Hpl Hcap Hs) as G2. fold env in G1, G2, Hev.
    unfold l, o in G2. change (p_cfg p) with (fe_cfg env) in G2.
    rewrite by_hand_flat in G2 by (try assumption; now apply mf_body).
    change (h <~ f_header pl ;; f_record_by pl (f_body pl) h) with (f_record pl) in G2.
    change (fe_cfg env) with (p_cfg p) in G2. fold o in G2. fold l in G2.
    destruct (f_record pl env l 0) as [[b md] l' n ev|e l' n ev].
    + destruct G1 as (bc & p1 & R1 & <- & M1), (G2 Hev) as (_ & p2 & R2 & M2).
      exists (inr (bc, md)), n, p1, p2. auto.
    + destruct G1 as (p1 & R1 & M1), (G2 Hev) as (_ & p2 & R2 & M2).
      exists (inl e), n, p1, p2. auto.
Qed.

(** Full statement: without the conditions on the misc bits of the parser's configuration.  Clients
    cannot set those ([with_misc] is private to the crate), so an MMAP2 record with a build id
    and a SWITCH_CPU_WIDE of a task being switched out are misread by hand. *)
Lemma gives_collect : forall pl S (PB : parsebuf S) p b md p',
  collect pl PB p = (Ok (b, md), p') -> gives pl PB p (inr (b, md)) p'.
Proof.
  intros pl S PB p b md p' E O V. rewrite record_eq. rewrite (bind_eq _ _ _ _ _ _ _ E). cbn [fst snd].
  rewrite deliver_answer. reflexivity.
Qed.

Theorem C71_by_hand_refuted :
  (let p := on_slice 4096 (w_header LE 15 (2 ^ 13) 16 ++ w32 LE 7 ++ w32 LE 8) ex_cfg0 in
   exists md p1, gives pl64 slice_buf p (inr (BSwitchCpuWide (SwOut 7 8), md)) p1 /\
     fst (run pl64 by_hand slice slice_buf p) = Ok (BSwitchCpuWide (SwIn 7 8), md)) /\
  (let p := on_slice 4096 (w_header LE 10 (2 ^ 14) 80 ++ w32 LE 7 ++ w32 LE 8 ++ w64 LE 0x1000 ++ w64 LE 0x2000 ++
              w64 LE 0 ++ [20; 0; 0; 0] ++ map N.of_nat (seq 1 20) ++ w32 LE 5 ++ w32 LE 2 ++ [97; 0; 0; 0; 0; 0; 0; 0]) ex_cfg0 in
   exists md p1, gives pl64 slice_buf p
       (inr (BMmap2 (mkMmap2 7 8 0x1000 0x2000 0 (MdBuildId (map N.of_nat (seq 1 20)) 20) 5 2 (Borrowed 4168 [97])), md)) p1 /\
     fst (run pl64 by_hand slice slice_buf p) =
       Ok (BMmap2 (mkMmap2 7 8 0x1000 0x2000 0 (MdDefault 20 0x04030201 0x0C0B0A0908070605 0x14131211100F0E0D) 5 2 [97]), md)).
Proof.
  split; cbv zeta.
  - exists (mkMeta 15 (2 ^ 13) sample_id_default). eexists.
    split; [apply gives_collect; vm_compute; reflexivity|vm_compute; reflexivity].
  - exists (mkMeta 10 (2 ^ 14) sample_id_default). eexists.
    split; [apply gives_collect; vm_compute; reflexivity|vm_compute; reflexivity].
Qed.

Example C71_example :
  let l := w_header LE 3 0 20 ++ w32 LE 7 ++ w32 LE 8 ++ [97; 98; 0; 0] in
  let p := on_slice 4096 l ex_cfg0 in
  source slice_buf Whole eof_error (len l) (memory_of 4096 l) p l 4096 /\ len l <= isize_max pl64 /\
  tame pl64 ex_cfg0 Whole 4096 l /\
  fst (run pl64 by_hand slice slice_buf p) = Ok (BComm (mkComm 7 8 [97; 98]), mkMeta 3 0 sample_id_default).
Proof.
  cbv zeta. split; [|split; [vm_compute; discriminate|split]].
  - apply slice_source; [vm_compute; repeat constructor|reflexivity|apply N.le_refl|apply memory_of_at].
  - split; [now left|]. left. vm_compute. split; discriminate.
  - vm_compute. reflexivity.
Qed.

(** The sample of the documentation test (src/lib.rs:116-130) in a slice and in pieces of two
    bytes; a program that gives up within the record leaves the next record to be read. *)
Definition doc_sample : custom_sample :=
  mkCustom 0x3C2B1A9948331210 2 3 [0xF001; 0xF002; 0xF003; 0xF004] 0xC9406500006540C9.
Definition doc_bytes : list N :=
  [0x09; 0x00; 0x00; 0x00; 0x00; 0x00; 0x48; 0x00;
   0x10; 0x12; 0x33; 0x48; 0x99; 0x1A; 0x2B; 0x3C; 0x02; 0x00; 0x00; 0x00; 0x03; 0x00; 0x00; 0x00;
   0x04; 0x00; 0x00; 0x00; 0x00; 0x00; 0x00; 0x00; 0x01; 0xF0; 0x00; 0x00; 0x00; 0x00; 0x00; 0x00;
   0x02; 0xF0; 0x00; 0x00; 0x00; 0x00; 0x00; 0x00; 0x03; 0xF0; 0x00; 0x00; 0x00; 0x00; 0x00; 0x00;
   0x04; 0xF0; 0x00; 0x00; 0x00; 0x00; 0x00; 0x00; 0xC9; 0x40; 0x65; 0x00; 0x00; 0x65; 0x40; 0xC9].

(** Reads a word of the record, then fails; the failure is caught and the next record read. *)
Definition gives_up : prog ((perror + N) * (N * custom_sample)) :=
  (r <-- PTry (parse_metadata_p (fun md => x <-- PU64 ;;; PError (A := N) (mkError KInvalidRecord None))) ;;;
   s <-- custom_example ;;; PRet (r, s))%prog.

Example C70_example :
  calm custom_example /\ settled custom_example /\ calm gives_up /\ custom_ok doc_sample /\
  doc_bytes = w_header LE 9 0 72 ++ w_custom LE doc_sample ++ [] ++ [] /\
  8 + len (w_custom LE doc_sample ++ []) = 72 /\
  fst (run pl64 custom_example slice slice_buf (on_slice 4096 doc_bytes (config_default Little))) = Ok (9, doc_sample) /\
  fst (run pl32 custom_example bufreader bufreader_buf (reader_of (chunks 2 doc_bytes) (config_default Little))) = Ok (9, doc_sample) /\
  fst (run pl64 gives_up slice slice_buf (on_slice 4096 (ex_lost ++ doc_bytes) (config_default Little))) =
    Ok (inl (mkError KInvalidRecord None), (9, doc_sample)).
Proof.
  split; [cbn; tauto|]. split; [cbn; tauto|]. split; [cbn; tauto|].
  split; [|split; [vm_compute; reflexivity|split; [vm_compute; reflexivity|split; [vm_compute; reflexivity|
           split; vm_compute; reflexivity]]]].
  unfold custom_ok. cbn [doc_sample cs_ip cs_pid cs_tid cs_callstack cs_cgroup].
  repeat split; try reflexivity. repeat constructor.
Qed.

(** Any record, and the next as well: not calm, but alike on two readers, and on two slices at
    addresses which are multiples of eight. *)
Definition two_records : prog ((body list * metadata) * (body list * metadata)) :=
  (x <-- parse_record_p ;;; y <-- parse_record_p ;;; PRet (x, y))%prog.

Example C70_example_alike :
  let ns := w_header LE 16 0 40 ++ w32 LE 1 ++ w32 LE 2 ++ w64 LE 1 ++ w64 LE 3 ++ w64 LE 4 in
  let l := ns ++ w_header LE 2 1 24 ++ w64 LE 7 ++ w64 LE 9 in
  ~ calm two_records /\ alike pl64 two_records NoExt 0 NoExt 0 /\ alike pl64 two_records Whole 4096 Whole 64 /\
  let v := Ok ((BNamespaces (mkNamespaces 1 2 [mkNs 3 4]), mkMeta 16 0 sample_id_default),
               (BLost (mkLost 7 9), mkMeta 2 1 sample_id_default)) in
  fst (run pl64 two_records slice slice_buf (on_slice 4096 l ex_cfg0)) = v /\
  fst (run pl64 two_records slice slice_buf (on_slice 64 l ex_cfg0)) = v /\
  fst (run pl64 two_records bufreader bufreader_buf (reader_of [l] ex_cfg0)) = v /\
  fst (run pl64 two_records bufreader bufreader_buf (reader_of (chunks 4 l) ex_cfg0)) = v.
Proof.
  cbv zeta. split; [|split; [|split]].
  - intros [H _]. cbn in H. destruct H as [_ H]. specialize (H (mkHeader 9 0 8)). now destruct H as (H & _).
  - right. left. split; reflexivity.
  - right. right. split; [reflexivity|]. split; reflexivity.
  - repeat match goal with |- _ /\ _ => split; [vm_compute; reflexivity|] end. vm_compute. reflexivity.
Qed.

(** One call of each kind, on the same bytes. *)
Example C70_example_calls :
  let l := [1; 2; 3; 4; 5; 6; 7; 8; 9; 0] in
  let on {A : Type} (m : prog A) := let '(r, p) := run pl64 m slice slice_buf (on_slice 4096 l ex_cfg) in (r, sl_data (p_buf p)) in
  on PU8 = (Ok 1, drop 1 l) /\ on PU16 = (Ok 0x0201, drop 2 l) /\ on PU32 = (Ok 0x04030201, drop 4 l) /\
  on PU64 = (Ok 0x0807060504030201, drop 8 l) /\ on (PArray 3) = (Ok [1; 2; 3], drop 3 l) /\
  on (PBytes 3) = (Ok [1; 2; 3], drop 3 l) /\ on PRest = (Ok l, []) /\ on PTrimmed = (Ok (take 9 l), []) /\
  on (PIf true PU8) = (Ok (Some 1), drop 1 l) /\ on (PIf false PU8) = (Ok None, l) /\
  on (PRepeat 1 PU8 3) = (Ok [1; 2; 3], drop 3 l) /\ on (PRepeat 4 PU32 (2 ^ 64 - 1)) = (Err eof_error, []) /\
  on PConfig = (Ok ex_cfg, l) /\ on (PTry PU64) = (Ok (inr 0x0807060504030201), drop 8 l) /\
  on (PTry (PBytes 11)) = (Ok (inl eof_error), []) /\
  on PSampleId = (Err eof_error, []) /\ on (PSlice 1) = (Ok [0x0807060504030201], drop 8 l) /\
  on (PRecord (mkHeader 3 0 18)) = (Err (custom_error KInvalidRecord MsgNoRoomForSampleId), []) /\
  on (PBody 3) = (Ok (BComm (mkComm 0x04030201 0x08070605 [9])), []) /\
  on (PMetadata (mkHeader 9 0 11) (fun md => PThen PRest (fun b => PRet (b, md)))) =
    (Ok ([1; 2; 3], mkMeta 9 0 sample_id_default), drop 3 l).
Proof.
  cbv zeta. repeat match goal with |- _ /\ _ => split; [vm_compute; reflexivity|] end. vm_compute. reflexivity.
Qed.

(** The custom sample with a count of 2^60, from a reader: room for 2048 values of eight bytes is
    made, and no more. *)
Example C70_example_reserve :
  let l := w64 LE 1 ++ w32 LE 2 ++ w32 LE 3 ++ w64 LE (2 ^ 60) ++ w64 LE 4 in
  let '(r, p) := run pl64 parse_custom bufreader bufreader_buf (reader_of [l] (config_default Little)) in
  r = Err eof_error /\ p_log p = [16384].
Proof. vm_compute. split; reflexivity. Qed.

Print Assumptions C70_ends.
Print Assumptions C70_same.
Print Assumptions C70_alike_needed.
Print Assumptions C70_frame.
Print Assumptions C70_caught.
Print Assumptions C70_local.
Print Assumptions C70_more.
Print Assumptions C70_custom.
Print Assumptions C71_by_hand_partial.
Print Assumptions C71_by_hand_refuted.
