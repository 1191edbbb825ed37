(** Facts for C78: one call takes one frame, and what it gives is in that frame. *)
From Coq Require Import NArith List Bool Lia.
From Verif Require Import Base BaseFacts Types Platform Config Buf Parser Contract Flat Refine.
From Verif Require Import Instances Records Sample Record Views RefFrame RefTop Spec NoHint FrameFacts.
From Verif Require Import SameFacts Copied Placed Framing PropsFrame PropsSame.
Import ListNotations.
Open Scope N_scope.

(** ** Frames. *)

Lemma frame_min : forall o f, frame o f -> 8 <= len f /\ size_of o f <= len f.
Proof. intros o f [_ H]. lia. Qed.

Lemma size_app : forall o f x, 8 <= len f -> size_of o (f ++ x) = size_of o f.
Proof.
  intros o f x H. unfold size_of. rewrite drop_app_le by lia. rewrite take_app_le; [reflexivity|].
  rewrite len_drop. lia.
Qed.

Lemma frames_exist : forall o n l, len l <= N.of_nat n -> bytes l ->
  exists fs tl, l = concat fs ++ tl /\ Forall (frame o) fs /\ unfinished o tl.
Proof.
  intros o n. induction n as [|n IH]; intros l Hn Hb.
  - exists [], l. split; [reflexivity|]. split; [constructor|]. split; [exact Hb|]. left. lia.
  - destruct (N.ltb_spec (len l) (N.max 8 (size_of o l))) as [Hl|Hl].
    + exists [], l. split; [reflexivity|]. split; [constructor|]. split; [exact Hb|]. lia.
    + set (k := N.max 8 (size_of o l)) in *.
      assert (Hb1 : bytes (take k l) /\ bytes (drop k l)).
      { unfold bytes in *. rewrite <- (take_drop k l) in Hb. now apply Forall_app in Hb. }
      destruct (IH (drop k l)) as (fs & tl & E & F & U); [rewrite len_drop; lia|apply Hb1|].
      exists (take k l :: fs), tl. split; [|split; [constructor; [|exact F]|exact U]].
      * cbn [concat]. rewrite <- app_assoc, <- E. symmetry. apply take_drop.
      * split; [apply Hb1|]. rewrite len_take, N.min_l by exact Hl.
        unfold k. f_equal. rewrite <- (take_drop k l) at 1. rewrite size_app; [reflexivity|].
        rewrite len_take. lia.
Qed.

Lemma frame_not_cut : forall o f x, frame o f -> ~ unfinished o (f ++ x).
Proof.
  intros o f x Hf [_ H]. pose proof (frame_min _ _ Hf) as [H8 Hs]. rewrite size_app, len_app in H by exact H8. lia.
Qed.

Lemma frames_unique : forall o fs1 tl1 fs2 tl2, concat fs1 ++ tl1 = concat fs2 ++ tl2 ->
  Forall (frame o) fs1 -> unfinished o tl1 -> Forall (frame o) fs2 -> unfinished o tl2 ->
  fs1 = fs2 /\ tl1 = tl2.
Proof.
  intros o fs1. induction fs1 as [|f fs1 IH]; intros tl1 fs2 tl2 E F1 U1 F2 U2.
  - destruct fs2 as [|g fs2]; [now split|]. exfalso. inversion F2; subst. cbn in E. subst tl1.
    rewrite <- app_assoc in U1. now apply frame_not_cut in U1.
  - destruct fs2 as [|g fs2].
    { exfalso. inversion F1; subst. cbn in E. subst tl2. rewrite <- app_assoc in U2. now apply frame_not_cut in U2. }
    inversion F1 as [|? ? Hf F1']; inversion F2 as [|? ? Hg F2']; subst. cbn [concat] in E. rewrite <- !app_assoc in E.
    assert (L : len f = len g).
    { pose proof (frame_min _ _ Hf) as [Hf8 _]. pose proof (frame_min _ _ Hg) as [Hg8 _].
      destruct Hf as [_ ->], Hg as [_ ->]. f_equal. rewrite <- (size_app o f (concat fs1 ++ tl1) Hf8), E. now apply size_app. }
    assert (f = g).
    { rewrite <- (take_app_exact (len f) f (concat fs1 ++ tl1)), E by reflexivity. now apply take_app_exact. }
    subst g. apply app_inv_head in E. destruct (IH _ _ _ E F1' U1 F2' U2) as [-> ->]. now split.
Qed.

Lemma change_len : forall i x f, (i < length f)%nat -> len (change i x f) = len f.
Proof.
  intros i x f H. unfold change, len. rewrite app_length, firstn_length. cbn [length]. rewrite skipn_length. lia.
Qed.

Lemma change_frame : forall o i x f, frame o f -> (i < length f)%nat -> x < 256 -> i <> 6%nat -> i <> 7%nat ->
  frame o (change i x f).
Proof.
  intros o i x f Hf Hi Hx H6 H7. pose proof (frame_min _ _ Hf) as [H8 _]. destruct Hf as [Hb Hl]. split.
  - unfold change, bytes in *. apply Forall_app. split.
    + rewrite <- (firstn_skipn i f) in Hb. now apply Forall_app in Hb.
    + constructor; [exact Hx|]. rewrite <- (firstn_skipn (S i) f) in Hb. now apply Forall_app in Hb.
  - rewrite change_len by exact Hi. rewrite Hl at 1. f_equal. unfold size_of. f_equal.
    unfold len in H8. destruct f as [|b0 [|b1 [|b2 [|b3 [|b4 [|b5 [|b6 [|b7 f]]]]]]]]; try (cbn in H8; lia).
    do 8 (destruct i as [|i]; [first [reflexivity|exfalso; lia]|]).
    unfold change. cbn [firstn app skipn].
    assert (K : forall r, take 2 (drop 6 (b0 :: b1 :: b2 :: b3 :: b4 :: b5 :: b6 :: b7 :: r)) = [b6; b7]).
    { intros r. change (take 2 ([b6; b7] ++ r) = [b6; b7]). now apply take_app_exact. }
    now rewrite !K.
Qed.

Lemma bind_bind : forall B C D (m : F B) (k : B -> F C) (k' : C -> F D) env l pos,
  fbind (fbind m k) k' env l pos = fbind m (fun b => fbind (k b) k') env l pos.
Proof.
  intros B C D m k k' env l pos. unfold fbind. destruct (m env l pos) as [b l1 p1 e1|]; [|reflexivity].
  destruct (k b env l1 p1) as [c l2 p2 e2|]; [|reflexivity].
  destruct (k' c env l2 p2); now rewrite app_assoc.
Qed.

(** ** The flat parsers of records, for any parser of bodies. *)
Section By.
Context (pl : platform) (body_of : N -> F (body list)).

Definition by_header (h : header) : F (body list * metadata) :=
  r <~ f_metadata_with_header pl h ;;
  c <~ fcfg ;;
  b <~ f_sub (body_of (h_type h)) (with_misc c (h_misc h)) (fst r) ;;
  fret (b, snd r).
Definition by_record : F (body list * metadata) := h <~ f_header pl ;; by_header h.

(** Neither takes anything nor minds what comes. *)
Definition still {B : Type} (m : F B) : Prop :=
  forall env l pos, match m env l pos with FOk _ l' p' _ | FErr _ l' p' _ => l' = l /\ p' = pos end.
Lemma still_ret : forall B (b : B), still (fret b). Proof. intros B b env l pos. now split. Qed.
Lemma still_fail : forall B e, still (@ffail B e). Proof. intros B e env l pos. now split. Qed.
Lemma still_cfg : still fcfg. Proof. intros env l pos. now split. Qed.
Lemma still_sub : forall B (m : F B) c st, still (f_sub m c st).
Proof. intros B m c st env l pos. unfold f_sub. destruct (m _ _ _); now split. Qed.
Lemma still_bind : forall B C (m : F B) (k : B -> F C), still m -> (forall b, still (k b)) -> still (fbind m k).
Proof.
  intros B C m k Hm Hk env l pos. unfold fbind. specialize (Hm env l pos).
  destruct (m env l pos) as [b l1 p1 e1|e l1 p1 e1]; [|exact Hm]. destruct Hm as [-> ->].
  specialize (Hk b env l pos). now destruct (k b env l pos).
Qed.

Lemma by_local : forall c fin1 fin2 r x1 x2, 8 <= len r -> size_of (order_of pl (c_endian c)) r <= len r ->
  same_out (by_record (mkEnv c fin1) (r ++ x1) 0) (by_record (mkEnv c fin2) (r ++ x2) 0).
Proof.
  intros c fin1 fin2 r x1 x2 Hr Hs. unfold by_record, fbind.
  rewrite !header_app_1 by exact Hr. cbv zeta. unfold size_of in Hs.
  set (h := mkHeader _ _ _). change (from_order _ (take 2 (drop 6 r))) with (h_size h) in Hs.
  clearbody h.
  assert (G : same_out (by_header h (mkEnv c fin1) (drop 8 r ++ x1) (0 + 8))
                       (by_header h (mkEnv c fin2) (drop 8 r ++ x2) (0 + 8))).
  { unfold by_header. apply same_bind.
    2: { intros b. repeat first [apply blind_ret|apply blind_cfg|apply blind_sub|apply blind_bind; [|intros ?]]. }
    unfold f_metadata_with_header. destruct (N.ltb_spec (h_size h) 8); [cbn; auto|].
    apply same_bind.
    - rewrite !split_app_1 by (rewrite len_drop; lia). cbn. auto.
    - intros st. destruct (_ || _); [apply blind_ret|]. apply blind_bind; [apply blind_cfg|].
      intros c'. destruct (_ <? _); [apply blind_fail|].
      repeat first [apply blind_ret|apply blind_sub|apply blind_bind; [|intros ?]]. }
  destruct (by_header h (mkEnv c fin1) _ _); destruct (by_header h (mkEnv c fin2) _ _); cbn in *; tauto.
Qed.

(** A frame is taken as a whole. *)
Lemma by_takes : forall c fin f x, frame (order_of pl (c_endian c)) f ->
  match by_record (mkEnv c fin) (f ++ x) 0 with FOk _ l' n _ | FErr _ l' n _ => l' = x /\ n = len f end.
Proof.
  intros c fin f x Hf. pose proof (frame_min _ _ Hf) as [H8 Hs]. destruct Hf as [_ Hl].
  unfold by_record. unfold fbind at 1. rewrite header_app_1 by exact H8. cbv zeta. unfold size_of in *.
  set (h := mkHeader _ _ _). change (from_order _ (take 2 (drop 6 f))) with (h_size h) in Hs, Hl.
  clearbody h.
  assert (G : match by_header h (mkEnv c fin) (drop 8 f ++ x) (0 + 8) with
              | FOk _ l' n _ | FErr _ l' n _ => l' = x /\ n = len f end).
  2: { destruct (by_header h (mkEnv c fin) (drop 8 f ++ x) (0 + 8)); exact G. }
  unfold by_header, f_metadata_with_header. destruct (N.ltb_spec (h_size h) 8) as [Hh|Hh].
  - assert (L : len f = 8) by lia. cbn. rewrite drop_all by lia. split; [reflexivity|lia].
  - assert (L : len f = h_size h) by lia.
    rewrite bind_bind. unfold fbind at 1. rewrite split_app_1 by (rewrite len_drop; lia). rewrite drop_drop. rewrite (drop_all (8 + (h_size h - 8)) f) by lia.
    cbn [app].
    match goal with |- context [fbind ?k1 ?k2 ?env ?l ?pos] => assert (St : still (fbind k1 k2)) end.
    { apply still_bind.
      - destruct (_ || _); [apply still_ret|]. apply still_bind; [apply still_cfg|].
        intros c'. destruct (_ <? _); [apply still_fail|].
        repeat first [apply still_ret|apply still_sub|apply still_bind; [|intros ?]].
      - intros b. repeat first [apply still_ret|apply still_cfg|apply still_sub|apply still_bind; [|intros ?]]. }
    match goal with |- context [fbind ?k1 ?k2 ?env ?l ?pos] => specialize (St env l pos); destruct (fbind k1 k2 env l pos) end;
    (destruct St as [-> ->]; split; [reflexivity|lia]).
Qed.

(** What is cut is taken, and gives the error of the source. *)
Lemma by_cut : forall c fin l, unfinished (order_of pl (c_endian c)) l ->
  by_record (mkEnv c fin) l 0 = FErr fin [] (len l) [].
Proof.
  intros c fin l [_ H]. destruct (N.ltb_spec (len l) 8) as [H8|H8].
  - unfold by_record, fbind at 1.
    replace (f_header pl (mkEnv c fin) l 0) with (@FErr header fin [] (len l) []); [reflexivity|symmetry].
    destruct l as [|b0 [|b1 [|b2 [|b3 [|b4 [|b5 [|b6 [|b7 t]]]]]]]]; try reflexivity.
    exfalso. rewrite !len_cons in H8. lia.
  - destruct H as [H|H]; [lia|]. unfold by_record, fbind at 1. rewrite <- (app_nil_r l) at 1.
    rewrite header_app_1 by exact H8. cbv zeta. rewrite app_nil_r. unfold size_of in H.
    set (h := mkHeader _ _ _). change (from_order _ (take 2 (drop 6 l))) with (h_size h) in H. clearbody h.
    unfold by_header, f_metadata_with_header. destruct (N.ltb_spec (h_size h) 8) as [Hh|Hh]; [lia|].
    assert (E : f_split (h_size h - 8) (mkEnv c fin) (drop 8 l) (0 + 8) = FErr fin [] (len l) []).
    { unfold f_split. destruct (N.eqb_spec (h_size h - 8) 0); [lia|]. unfold f_take.
      destruct (drop 8 l) as [|y t] eqn:E.
      - assert (L : len (drop 8 l) = 0) by now rewrite E. rewrite len_drop in L.
        cbn [fe_fin]. f_equal. lia.
      - rewrite <- E. rewrite len_drop. destruct (N.ltb_spec (len l - 8) (h_size h - 8)) as [_|]; [|lia].
        cbn [fe_fin]. f_equal. lia. }
    unfold fbind. rewrite E. reflexivity.
Qed.

Definition outcome {B : Type} (x : fout B) : perror + B :=
  match x with FOk b _ _ _ => inr b | FErr e _ _ _ => inl e end.
End By.

(** What is seen of a result: not where the bytes are held. *)
Definition shown (r : result) : perror + (body list * metadata) :=
  match r with inl e => inl e | inr (b, md) => inr (view_body b, md) end.

Lemma run_app : forall pl S (PB : parsebuf S) xs ys p p1 p2,
  run_gives pl PB p xs p1 -> run_gives pl PB p1 ys p2 -> run_gives pl PB p (xs ++ ys) p2.
Proof.
  intros pl S PB xs. induction xs as [|x xs IH]; intros ys p p1 p2 H1 H2; cbn in *; [now subst|].
  destruct H1 as (q & G & H1). exists q. split; [exact G|]. eapply IH; eassumption.
Qed.

(** The end of the data, however often it is asked for. *)
Lemma gives_cut : forall pl S (PB : parsebuf S) mo fin cap mem p l a, pl_ok pl ->
  source PB mo fin cap mem p l a -> unfinished (order_of pl (c_endian (p_cfg p))) l ->
  exists p', gives pl PB p (inl fin) p' /\ moved PB mo fin cap mem l a p (len l) p'.
Proof.
  intros pl S PB mo fin cap mem p l a Hpl (rep & HC & Hr & Hw) Hu.
  pose proof (by_cut pl (f_body pl) (p_cfg p) fin l Hu) as E.
  change (by_record pl (f_body pl)) with (f_record pl) in E.
  pose proof (collect_ref pl PB mo fin cap mem rep a HC Hpl) as HR.
  destruct (run_err mo fin 65536 rep _ _ _ _ _ _ _ _ _ _ _ _ HR Hr Hw E (Forall_nil _)) as (p' & Ep & Hs).
  exists p'. split; [|eapply step_moved; eassumption].
  intros O V. rewrite record_eq. unfold bind. now rewrite Ep.
Qed.

Lemma gives_cut_all : forall pl S (PB : parsebuf S) mo fin cap mem k p l a, pl_ok pl ->
  source PB mo fin cap mem p l a -> unfinished (order_of pl (c_endian (p_cfg p))) l ->
  exists p', run_gives pl PB p (repeat (inl fin) k) p'.
Proof.
  intros pl S PB mo fin cap mem k. induction k as [|k IH]; intros p l a Hpl Hs Hu; [now exists p|].
  destruct (gives_cut _ _ _ _ _ _ _ _ _ _ Hpl Hs Hu) as (p1 & G & _ & Hs1 & _).
  rewrite drop_all in Hs1 by lia. destruct (IH p1 [] _ Hpl Hs1) as (p2 & R).
  - split; [constructor|]. left. reflexivity.
  - exists p2, p1. now split.
Qed.

Lemma stream_by : forall pl S (PB : parsebuf S) mo fin cap mem c (body_at : N -> N -> F (body list))
    (fine : N -> list N -> Prop),
  (forall p l a, p_cfg p = c -> fine a l -> source PB mo fin cap mem p l a ->
    match by_record pl (body_at a) (mkEnv c fin) l 0 with
    | FOk (b, md) _ n _ => exists bc p', gives pl PB p (inr (bc, md)) p' /\ view_body bc = b /\
        moved PB mo fin cap mem l a p n p'
    | FErr e _ n _ => exists p', gives pl PB p (inl e) p' /\ moved PB mo fin cap mem l a p n p'
    end) ->
  forall fs tl p a, p_cfg p = c -> Forall (frame (order_of pl (c_endian c))) fs ->
  source PB mo fin cap mem p (concat fs ++ tl) a ->
  (forall fs1 f fs2, fs = fs1 ++ f :: fs2 -> fine (a + len (concat fs1)) (f ++ concat fs2 ++ tl)) ->
  exists rs p', run_gives pl PB p rs p' /\
    map shown rs = placed (fun a f => outcome (by_record pl (body_at a) (mkEnv c eof_error) f 0)) a fs /\
    source PB mo fin cap mem p' tl (a + len (concat fs)) /\ p_cfg p' = c /\ p_off p' = p_off p + len (concat fs).
Proof.
  intros pl S PB mo fin cap mem c body_at fine Hstep fs tl. induction fs as [|f fs IH]; intros p a Ec Hf Hs Hfine.
  - exists [], p. cbn [concat app map placed] in *. change (len (@nil N)) with 0. rewrite !N.add_0_r. now repeat split.
  - inversion Hf as [|? ? Hf1 Hf2]; subst. cbn [concat] in *. rewrite <- app_assoc in Hs.
    pose proof (Hfine [] f fs eq_refl) as F0. cbn [concat] in F0. change (len (@nil N)) with 0 in F0. rewrite N.add_0_r in F0.
    specialize (Hstep p _ a eq_refl F0 Hs) as G.
    pose proof (by_takes pl (body_at a) (p_cfg p) fin f (concat fs ++ tl) Hf1) as T.
    pose proof (frame_min _ _ Hf1) as [H8 Hz].
    pose proof (by_local pl (body_at a) (p_cfg p) fin eof_error f (concat fs ++ tl) [] H8 Hz) as L. rewrite app_nil_r in L.
    assert (K : exists r p1, gives pl PB p r p1 /\
      shown r = outcome (by_record pl (body_at a) (mkEnv (p_cfg p) eof_error) f 0) /\
      moved PB mo fin cap mem (f ++ concat fs ++ tl) a p (len f) p1).
    { destruct (by_record pl (body_at a) (mkEnv (p_cfg p) fin) (f ++ concat fs ++ tl) 0) as [[b md] l' n ev|e l' n ev];
      destruct (by_record pl (body_at a) (mkEnv (p_cfg p) eof_error) f 0) as [[b2 md2] l2 n2 ev2|e2 l2 n2 ev2];
        try contradiction; destruct L as (L1 & _); destruct T as [_ ->].
      - destruct G as (bc & p1 & G1 & G2 & G3). exists (inr (bc, md)), p1. split; [exact G1|]. split; [|exact G3].
        cbn. congruence.
      - destruct G as (p1 & G1 & G2). exists (inl e), p1. split; [exact G1|]. split; [|exact G2]. cbn. congruence. }
    destruct K as (r & p1 & G1 & G2 & _ & Hs1 & Ec1 & Eo1). rewrite drop_app_exact in Hs1 by reflexivity.
    destruct (IH p1 (a + len f) Ec1 Hf2 Hs1) as (rs & p' & R1 & R2 & R3 & R4 & R5).
    { intros fs1 g fs2 E. rewrite E in Hfine. specialize (Hfine (f :: fs1) g fs2 eq_refl). cbn [concat] in Hfine.
      rewrite len_app, N.add_assoc in Hfine. exact Hfine. }
    exists (r :: rs), p'. split; [now exists p1|]. split; [cbn [map placed]; now rewrite G2, R2|].
    rewrite len_app, !N.add_assoc. split; [exact R3|]. split; [exact R4|]. rewrite R5, Eo1. reflexivity.
Qed.

(** The whole of a recording, and its end [k] times. *)
Lemma recording_by : forall pl S (PB : parsebuf S) mo fin cap mem c (body_at : N -> N -> F (body list))
    (fine : N -> list N -> Prop), pl_ok pl ->
  (forall p l a, p_cfg p = c -> fine a l -> source PB mo fin cap mem p l a ->
    match by_record pl (body_at a) (mkEnv c fin) l 0 with
    | FOk (b, md) _ n _ => exists bc p', gives pl PB p (inr (bc, md)) p' /\ view_body bc = b /\
        moved PB mo fin cap mem l a p n p'
    | FErr e _ n _ => exists p', gives pl PB p (inl e) p' /\ moved PB mo fin cap mem l a p n p'
    end) ->
  forall k fs tl p a, p_cfg p = c -> Forall (frame (order_of pl (c_endian c))) fs ->
  unfinished (order_of pl (c_endian c)) tl ->
  source PB mo fin cap mem p (concat fs ++ tl) a ->
  (forall fs1 f fs2, fs = fs1 ++ f :: fs2 -> fine (a + len (concat fs1)) (f ++ concat fs2 ++ tl)) ->
  exists rs p', run_gives pl PB p rs p' /\
    map shown rs =
    placed (fun a f => outcome (by_record pl (body_at a) (mkEnv c eof_error) f 0)) a fs ++ repeat (inl fin) k.
Proof.
  intros pl S PB mo fin cap mem c body_at fine Hpl Hstep k fs tl p a Ec Hf Hu Hs Hfine.
  destruct (stream_by pl S PB mo fin cap mem c body_at fine Hstep fs tl p a Ec Hf Hs Hfine) as (rs & p1 & R1 & R2 & R3 & R4 & _).
  rewrite <- R4 in Hu. destruct (gives_cut_all pl S PB mo fin cap mem k p1 tl _ Hpl R3 Hu) as (p2 & R).
  exists (rs ++ repeat (inl fin) k), p2. split; [eapply run_app; eassumption|].
  rewrite map_app, R2. f_equal. clear. induction k as [|k IH]; [reflexivity|]. cbn. now rewrite IH.
Qed.

Lemma placed_map : forall R (read : list N -> R) a fs, placed (fun _ => read) a fs = map read fs.
Proof. intros R read a fs. revert a. induction fs as [|f fs IH]; intros a; cbn; [|rewrite IH]; reflexivity. Qed.

Lemma placed_app : forall R (read : N -> list N -> R) fs1 fs2 a,
  placed read a (fs1 ++ fs2) = placed read a fs1 ++ placed read (a + len (concat fs1)) fs2.
Proof.
  intros R read fs1. induction fs1 as [|f fs1 IH]; intros fs2 a; cbn [placed concat app].
  - change (len (@nil N)) with 0. now rewrite N.add_0_r.
  - now rewrite IH, len_app, N.add_assoc.
Qed.
