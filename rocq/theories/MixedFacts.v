(** Proofs about recordings of several events (Mixed.v). *)
From Coq Require Import NArith List Bool Lia.
From Verif Require Import Base BaseFacts Types Platform Config Buf Parser Contract Flat Refine.
From Verif Require Import Instances Records Sample Record Views RefFrame RefTop Wire Codec Roundtrip RtRecord ConfFacts Spec.
From Verif Require Import Fixed SameFacts Copied Placed Accept AcceptFacts AcceptSample AcceptRecord Framing FramingFacts FrameFacts.
From Verif Require Import RoundFacts ClientFacts PropsFrame PropsParts PropsSame PropsRound PropsFollow Follow FollowFacts Mixed.
Import ListNotations.
Open Scope N_scope.

(** * Where the identifier is *)

Lemma whose_sample : forall o t m s v x, t < 2 ^ 32 -> t = 9 -> v < 2 ^ 64 ->
  whose o (w_header o t m s ++ w64 o v ++ x) = v.
Proof.
  intros o t m s v x Ht E9 Hv. unfold whose.
  rewrite (take_app_le 4) by (unfold w_header; rewrite !len_app, w32_len, !w16_len; lia).
  assert (E : take 4 (w_header o t m s) = w32 o t) by (unfold w_header; apply take_app_exact; now rewrite w32_len).
  rewrite E. unfold w32. rewrite from_enc by exact Ht. rewrite E9, N.eqb_refl.
  rewrite drop_app_exact by (unfold w_header; rewrite !len_app, w32_len, !w16_len; reflexivity).
  rewrite take_app_exact by now rewrite w64_len. unfold w64. now rewrite from_enc by exact Hv.
Qed.

Lemma whose_other : forall o t m s v x, t < 2 ^ 32 -> t <> 9 -> v < 2 ^ 64 ->
  whose o (w_header o t m s ++ x ++ w64 o v) = v.
Proof.
  intros o t m s v x Ht E9 Hv. unfold whose.
  rewrite (take_app_le 4) by (unfold w_header; rewrite !len_app, w32_len, !w16_len; lia).
  assert (E : take 4 (w_header o t m s) = w32 o t) by (unfold w_header; apply take_app_exact; now rewrite w32_len).
  rewrite E. unfold w32. rewrite from_enc by exact Ht.
  replace (t =? 9) with false by (symmetry; now apply N.eqb_neq).
  rewrite app_assoc. rewrite drop_app_exact by (rewrite !len_app, w64_len; lia).
  unfold w64. now rewrite from_enc by exact Hv.
Qed.

(** A sample_id that may be read from [bs]: its identifier is the last word. *)
Lemma l_sample_id_last : forall o w si bs, ws_id_all w = true -> sbit w 16 = true -> sbit w 6 = false ->
  fits (l_sample_id o w si) bs -> exists x, bs = x ++ w64 o (val (si_id si)).
Proof.
  intros o w si bs Hall H16 H6 Hf. unfold l_sample_id in Hf. rewrite Hall in Hf. cbn [l_if] in Hf.
  rewrite !app_assoc in Hf. apply fits_app in Hf as (x & y & -> & _ & Hf).
  unfold l_twice in Hf. rewrite H16, H6 in Hf. cbn [l_if] in Hf. apply fits_just in Hf. subst y. now exists x.
Qed.

Lemma field_some : forall b n x, field b n x -> b = true -> exists v, x = Some v /\ v < n.
Proof.
  intros b n [v|] H Hb; cbn in H; [|congruence]. exists v. now split.
Qed.

Lemma sample_id_known : forall w si, ws_id_all w = true -> sbit w 16 = true -> sample_id_ok w si ->
  exists v, si_id si = Some v /\ v < 2 ^ 64.
Proof.
  intros w si Hall H16 (_ & _ & _ & H & _). eapply field_some; [exact H|]. rewrite Hall, H16. now rewrite orb_true_r.
Qed.

(** * The metadata, read with any configuration *)

Lemma with_header_ok : forall pl env t m x y pos w,
  let o := order_of pl (c_endian (fe_cfg env)) in
  configured (fe_cfg env) w -> bytes x -> len x < 2 ^ 16 -> t <> 1 -> t <> 9 -> estimate_len (fe_cfg env) <= len x ->
  exists r pos' ev x' tail si,
    f_metadata_with_header pl (mkHeader t m (8 + len x)) env (x ++ y) pos = FOk r y pos' ev /\
    x = x' ++ tail /\ snd r = mkMeta t m si /\ sample_id_ok w si /\ fits (l_sample_id o w si) tail.
Proof.
  intros pl env t m x y pos w o Hw B Hx H1 H9 He. unfold f_metadata_with_header. cbn [h_size h_type h_misc].
  replace (8 + len x <? 8) with false by (symmetry; apply N.ltb_ge; lia).
  replace (8 + len x - 8) with (len x) by lia.
  destruct (Runs_split env x y pos (len x) eq_refl) as (ev1 & E1).
  unfold fbind at 1. rewrite E1.
  replace (t =? 1) with false by (symmetry; now apply N.eqb_neq).
  replace (t =? 9) with false by (symmetry; now apply N.eqb_neq). cbn [orb].
  unfold fcfg, fbind. replace (len x <? estimate_len (fe_cfg env)) with false by (symmetry; apply N.ltb_ge; exact He).
  set (k := len x - estimate_len (fe_cfg env)).
  unfold f_sub. cbn [fst snd].
  destruct (Runs_split (mkEnv (fe_cfg env) eof_error) (take k x) (drop k x) pos k) as (ev2 & E2).
  { rewrite len_take. unfold k. lia. }
  rewrite take_drop in E2. rewrite E2.
  assert (Bx : bytes (drop k x)) by now apply bytes_drop.
  pose proof (Fixed_sample_id pl (mkEnv (fe_cfg env) eof_error) w Hw (drop k x) (pos + len (take k x)) Bx) as F.
  cbn [fe_cfg fe_fin] in F.
  assert (Ld : len (drop k x) = estimate_len (fe_cfg env)) by (rewrite len_drop; unfold k; lia).
  replace (len (drop k x) <? estimate_len (fe_cfg env)) with false in F by (symmetry; apply N.ltb_ge; lia).
  destruct F as (si & _ & F). rewrite F.
  destruct (Snd_sample_id pl (mkEnv (fe_cfg env) eof_error) (len (drop k x)) w Hw _ _ _ _ _ _ Bx (N.le_refl _) F)
    as (tail & Et & Hsi & Hf). cbn [fe_cfg] in Hf.
  replace (drop (estimate_len (fe_cfg env)) (drop k x)) with (@nil N) in Et
    by (symmetry; apply drop_all; lia).
  rewrite app_nil_r in Et. cbn. do 3 eexists. exists (take k x), tail, si.
  split; [reflexivity|]. subst tail. rewrite take_drop. auto.
Qed.

Lemma metadata_ok : forall pl env t m x y pos w,
  let o := order_of pl (c_endian (fe_cfg env)) in
  configured (fe_cfg env) w -> bytes (x ++ y) -> t < 2 ^ 32 -> m < 2 ^ 16 -> 8 + len x < 2 ^ 16 ->
  t <> 1 -> t <> 9 -> estimate_len (fe_cfg env) <= len x ->
  exists r pos' x' tail si,
    f_metadata pl env (w_header o t m (8 + len x) ++ x ++ y) pos = FOk r y pos' [] /\
    x = x' ++ tail /\ snd r = mkMeta t m si /\ sample_id_ok w si /\ fits (l_sample_id o w si) tail.
Proof.
  intros pl env t m x y pos w o Hw B Ht Hm Hs H1 H9 He.
  destruct (Rt_header pl 0 true env t m (8 + len x) (x ++ y) pos Ht Hm Hs) as (ev & E & _). fold o in E.
  assert (ev = []) by (pose proof (noev_header pl env (w_header o t m (8 + len x) ++ x ++ y) pos) as Q; now rewrite E in Q). subst ev.
  set (p1 := pos + len (w_header o t m (8 + len x))) in *.
  assert (Bx : bytes x) by now apply Forall_app in B.
  destruct (with_header_ok pl env t m x y p1 w Hw Bx) as (r & pos' & ev & x' & tail & si & E2 & H);
    [lia|exact H1|exact H9|exact He|].
  assert (ev = []) by (pose proof (noev_metadata_with_header pl (mkHeader t m (8 + len x)) env (x ++ y) p1) as Q; now rewrite E2 in Q). subst ev.
  exists r, pos', x', tail, si. split; [|exact H].
  unfold f_metadata, fbind. rewrite E. fold p1. now rewrite E2.
Qed.

(** * One function for all configurations (C78 has one for each) *)

Lemma readings : forall pl mo, pl_ok pl -> mo = NoExt \/ mo = Whole ->
  exists read : config -> N -> list N -> perror + (body list * metadata),
  forall c, (forall a b f, (mo = Whole -> a mod word_align pl = b mod word_align pl) -> read c a f = read c b f) /\
  forall S (PB : parsebuf S) fin cap mem p a fs tl k,
  let o := order_of pl (c_endian c) in
  p_cfg p = c -> Forall (frame o) fs -> unfinished o tl ->
  source PB mo fin cap mem p (concat fs ++ tl) a ->
  exists rs p', run_gives pl PB p rs p' /\ map shown rs = placed (read c) a fs ++ repeat (inl fin) k.
Proof.
  intros pl mo Hpl [-> | ->].
  - exists (fun c _ f => outcome (by_record pl (f_body_copied pl) (mkEnv c eof_error) f 0)). intros c. split; [reflexivity|].
    intros S PB fin cap mem p a fs tl k o Ec Hf Hu Hs.
    apply (recording_by pl S PB NoExt fin cap mem c (fun _ => f_body_copied pl) (fun _ _ => True) Hpl) with
      (tl := tl); try assumption; [|auto].
    intros q l b Eq _ Hq. rewrite <- Eq. exact (gives_copied pl S PB fin cap mem q l b Hpl Hq).
  - set (w := word_align pl).
    exists (fun c a f => outcome (by_record pl (g_body pl (bad_at pl (a mod w))) (mkEnv c eof_error) f 0)). intros c.
    split; [intros a b f H; now rewrite (H eq_refl)|].
    intros S PB fin cap mem p a fs tl k o Ec Hf Hu Hs.
    apply (recording_by pl S PB Whole fin cap mem c (fun a => g_body pl (bad_at pl (a mod w))) (fun _ _ => True) Hpl) with
      (tl := tl); try assumption; [|auto].
    intros q l b Eq _ Hq. rewrite <- Eq. apply (gives_whole pl S PB fin cap mem q l b (b mod w) Hpl Hq).
    apply N.mod_mod. unfold w, word_align. now destruct (pl_align pl).
Qed.

(** * The client *)

(** What is behind a record makes no difference to whose it is. *)
Lemma config_at_frame : forall o events c0 f x, frame o f ->
  config_at o events c0 (f ++ x) = config_for events c0 (whose o f).
Proof.
  intros o events c0 f x Hf. pose proof (frame_min _ _ Hf) as [H8 _]. unfold config_at.
  rewrite size_app by exact H8. rewrite take_app_exact; [reflexivity|]. symmetry. apply Hf.
Qed.

Lemma config_for_in : forall events c0 id, In (config_for events c0 id) (c0 :: map snd events).
Proof.
  intros events c0 id. unfold config_for. destruct (find _ events) as [e|] eqn:E; [|now left].
  right. apply in_map. now apply find_some in E.
Qed.

Lemma config_for_event : forall events c0 e, NoDup (map fst events) -> In e events ->
  config_for events c0 (fst e) = snd e.
Proof.
  intros events c0 e. induction events as [|x events IH]; intros Hn Hin; [contradiction|].
  unfold config_for. cbn [find]. destruct Hin as [->|Hin]; [now rewrite N.eqb_refl|].
  inversion Hn as [|? ? Hx Hn']; subst. destruct (N.eqb_spec (fst x) (fst e)) as [E|_].
  - exfalso. apply Hx. rewrite E. now apply in_map.
  - now apply IH.
Qed.

Lemma placed_forall : forall R (r1 r2 : N -> list N -> R) (P : list N -> Prop) fs a, Forall P fs ->
  (forall a f, P f -> r1 a f = r2 a f) -> placed r1 a fs = placed r2 a fs.
Proof.
  intros R r1 r2 P fs a F H. revert a. induction F as [|f fs Hf F IH]; intros a; [reflexivity|].
  cbn [placed]. now rewrite H, IH.
Qed.

Section Sorted.
Context (pl : platform) (Hpl : pl_ok pl) (mo : mode).
Context (read : config -> N -> list N -> perror + (body list * metadata)).
Context (Hread : forall c, (forall a b f, (mo = Whole -> a mod word_align pl = b mod word_align pl) -> read c a f = read c b f) /\
  forall S (PB : parsebuf S) fin cap mem p a fs tl k,
  let o := order_of pl (c_endian c) in
  p_cfg p = c -> Forall (frame o) fs -> unfinished o tl ->
  source PB mo fin cap mem p (concat fs ++ tl) a ->
  exists rs p', run_gives pl PB p rs p' /\ map shown rs = placed (read c) a fs ++ repeat (inl fin) k).

Lemma sorted : forall o events c0 base fs tl ds S (PB : parsebuf S) fin open O (V : visitor O),
  let whole := concat fs ++ tl in
  Forall (frame o) fs -> unfinished o tl -> concat ds = whole ->
  (forall c, In c (c0 :: map snd events) -> order_of pl (c_endian c) = o /\ opens pl PB mo fin c base whole (open c)) ->
  let F := follow (sort_out pl PB open o events c0 V) 0 [] ds in
  exists rs, concat (fst F) = map (told V) rs /\
    map shown rs = placed (fun a f => read (config_for events c0 (whose o f)) a f) base fs /\
    snd F = (len (concat fs), tl).
Proof.
  intros o events c0 base fs tl ds S PB fin open O V whole F U Ed Ho.
  assert (B : bytes whole).
  { apply Forall_app. split; [|apply U]. clear - F. induction F as [|f fs [Hb _] F IH]; [constructor|].
    cbn [concat]. apply Forall_app. now split. }
  destruct (follow_is pl PB (fun pos l => open (config_at o events c0 l) pos l) o V
    (fun a f => read (config_for events c0 (whose o f)) a f) base whole) with (ds := ds) (fs := fs) (tl := tl) (pos := 0)
    (l := @nil N) as (rs & R & M & St); try assumption.
  - intros pos f x y E Hf. rewrite config_at_frame by exact Hf.
    set (c := config_for events c0 (whose o f)).
    destruct (Ho c (config_for_in events c0 (whose o f))) as [Ec Hop]. destruct (Hread c) as [Hal Hrd].
    pose proof (opens_frame pl c mo (read c) Hal Hrd S PB fin base whole (open c) Hop pos f x y E) as G.
    apply G. rewrite Ec. exact Hf.
  - rewrite drop_0. now rewrite Ed.
  - cbn [app]. now rewrite Ed.
  - split; [constructor|]. left. reflexivity.
  - exists rs. rewrite N.add_0_r in M. now repeat split.
Qed.
End Sorted.
