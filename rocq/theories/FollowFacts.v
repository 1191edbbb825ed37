(** Proofs about following a recording (Follow.v). *)
From Coq Require Import NArith List Bool Lia.
From Verif Require Import Base BaseFacts Types Platform Config Buf Parser Contract Flat Refine.
From Verif Require Import Instances Records Sample Record Views RefFrame RefTop Wire Spec SameFacts Copied Placed.
From Verif Require Import Framing FramingFacts PropsFrame PropsSame Follow.
Import ListNotations.
Open Scope N_scope.

(** What a visitor answers for a result. *)
Definition told {O : Type} (V : visitor O) (r : result) : out O :=
  match r with inl e => Err e | inr (b, md) => answer V b md end.

Lemma complete_frame : forall o f x, frame o f -> complete o (f ++ x) = true.
Proof.
  intros o f x Hf. pose proof (frame_min _ _ Hf) as [H8 Hs]. unfold complete.
  rewrite size_app, len_app by exact H8. apply andb_true_intro. split; apply N.leb_le; lia.
Qed.

Lemma complete_not : forall o l, unfinished o l -> complete o l = false.
Proof.
  intros o l [_ H]. unfold complete. apply andb_false_iff. destruct H; [left|right]; apply N.leb_gt; assumption.
Qed.

Lemma frames_few : forall o fs tl, Forall (frame o) fs -> (length fs <= length (concat fs ++ tl))%nat.
Proof.
  intros o fs tl F. rewrite app_length. enough (length fs <= length (concat fs))%nat by lia.
  induction F as [|f fs Hf F IH]; [reflexivity|]. cbn [concat length]. rewrite app_length.
  apply frame_min in Hf. unfold len in Hf. lia.
Qed.

(** Frames do not go away when more comes. *)
Lemma frames_more : forall o fs tl d fs' tl', concat fs ++ tl ++ d = concat fs' ++ tl' ->
  Forall (frame o) fs -> Forall (frame o) fs' -> unfinished o tl' -> bytes (tl ++ d) ->
  exists fs2, fs' = fs ++ fs2 /\ tl ++ d = concat fs2 ++ tl'.
Proof.
  intros o fs tl d fs' tl' E F F' U' B.
  destruct (frames_exist o (length (tl ++ d)) (tl ++ d)) as (fs2 & tl2 & E2 & F2 & U2); [unfold len; lia|exact B|].
  rewrite E2, app_assoc, <- concat_app in E.
  destruct (frames_unique o (fs ++ fs2) tl2 fs' tl' E) as [<- <-]; try assumption.
  - apply Forall_app. now split.
  - exists fs2. now split.
Qed.

Section Drain.
Context (pl : platform) {S : Type} (PB : parsebuf S) (open : N -> list N -> parser S) (o : order)
  {O : Type} (V : visitor O) (read : N -> list N -> perror + (body list * metadata)) (base : N) (whole : list N).

(** What is asked of the parsers that are made. *)
Context (Hopen : forall pos f x y, drop pos whole = f ++ x ++ y -> frame o f ->
  exists r p', gives pl PB (open pos (f ++ x)) r p' /\ shown r = read (base + pos) f).

Lemma drop_step : forall pos f x, drop pos whole = f ++ x -> drop (pos + len f) whole = x.
Proof.
  intros pos f x E. rewrite <- drop_drop, E. apply drop_app_exact. reflexivity.
Qed.

Lemma drain_is : forall fs n tl pos y, drop pos whole = concat fs ++ tl ++ y ->
  Forall (frame o) fs -> unfinished o tl -> (length fs <= n)%nat ->
  exists rs, drain pl PB open o V n pos (concat fs ++ tl) = (map (told V) rs, (pos + len (concat fs), tl)) /\
    map shown rs = placed read (base + pos) fs.
Proof.
  intros fs. induction fs as [|f fs IH]; intros n tl pos y E F U Hn.
  - exists []. split; [|reflexivity]. change (len (concat [])) with 0. rewrite N.add_0_r. cbn [concat app map].
    destruct n; [reflexivity|]. cbn [drain]. now rewrite complete_not.
  - inversion F as [|? ? Hf F']; subst. destruct n as [|n]; [cbn in Hn; lia|]. cbn [concat] in *.
    rewrite <- app_assoc in E.
    destruct (Hopen pos f (concat fs ++ tl) y) as (r & p' & G & Hr); [now rewrite <- app_assoc|exact Hf|].
    assert (E' : drop (pos + len f) whole = concat fs ++ tl ++ y) by now apply drop_step.
    destruct (IH n tl (pos + len f) y E' F' U) as (rs & D & M); [cbn in Hn; lia|].
    exists (r :: rs). cbn [drain map placed]. rewrite <- app_assoc, complete_frame by exact Hf.
    pose proof (frame_min _ _ Hf) as [H8 _]. rewrite size_app by exact H8.
    replace (N.max 8 (size_of o f)) with (len f) by apply Hf.
    rewrite drop_app_exact by reflexivity. rewrite D, (G O V). cbn [fst].
    split; [|rewrite Hr, M, N.add_assoc; reflexivity].
    rewrite len_app, N.add_assoc. reflexivity.
Qed.

Lemma follow_is : forall ds fs tl pos l, drop pos whole = l ++ concat ds -> l ++ concat ds = concat fs ++ tl ->
  bytes (l ++ concat ds) -> Forall (frame o) fs -> unfinished o tl -> unfinished o l ->
  exists rs, concat (fst (follow (drain pl PB open o V) pos l ds)) = map (told V) rs /\
    map shown rs = placed read (base + pos) fs /\
    snd (follow (drain pl PB open o V) pos l ds) = (pos + len (concat fs), tl).
Proof.
  intros ds. induction ds as [|d ds IH]; intros fs tl pos l E El B F U Ul.
  - cbn [concat] in El. rewrite app_nil_r in El. change l with (concat [] ++ l) in El.
    destruct (frames_unique o [] l fs tl El (Forall_nil _) Ul F U) as [<- <-].
    exists []. cbn. rewrite N.add_0_r. now repeat split.
  - cbn [concat] in E, El, B. rewrite app_assoc in E, El, B. cbn [follow].
    assert (Bl : bytes (l ++ d)) by (apply Forall_app in B; apply B).
    destruct (frames_exist o (length (l ++ d)) (l ++ d)) as (fs1 & tl1 & E1 & F1 & U1); [unfold len; lia|exact Bl|].
    rewrite E1 in E, El, B. rewrite <- app_assoc in E, El, B.
    destruct (drain_is fs1 (length (l ++ d)) tl1 pos (concat ds)) as (rs1 & D & M1); try assumption.
    { rewrite E1. eapply frames_few, F1. }
    rewrite <- E1 in D. rewrite D.
    destruct (frames_more o fs1 tl1 (concat ds) fs tl El F1 F U) as (fs2 & -> & E2).
    { apply Forall_app in B. apply B. }
    apply Forall_app in F as [_ F2].
    destruct (IH fs2 tl (pos + len (concat fs1)) tl1) as (rs2 & R & M2 & St); try assumption.
    { apply (drop_step pos (concat fs1)). exact E. }
    { apply Forall_app in B. apply B. }
    destruct (follow (drain pl PB open o V) (pos + len (concat fs1)) tl1 ds) as [rss st]. cbn [fst snd] in *.
    exists (rs1 ++ rs2). cbn [concat]. rewrite R, !map_app, M1, M2, placed_app, N.add_assoc.
    split; [reflexivity|]. split; [reflexivity|]. rewrite St, concat_app, len_app, N.add_assoc. reflexivity.
Qed.

(** The follower which goes by the error. *)
Definition eof_read (a : N) (f : list N) : Prop := exists e, read a f = inl e /\ is_eof e = true.

Context (Hcut : forall pos l y, drop pos whole = l ++ y -> unfinished o l ->
  exists e p', gives pl PB (open pos l) (inl e) p' /\ is_eof e = true).
Context (HV : forall b md e, answer V b md <> Err e).

Lemma told_ended : forall r, ended (told V r) = match r with inl e => is_eof e | _ => false end.
Proof.
  intros [e|[b md]]; [reflexivity|]. cbn. specialize (HV b md). destruct (answer V b md) as [?|e| |]; try reflexivity.
  now destruct (HV e).
Qed.

Fixpoint goes (a : N) (fs : list (list N)) : Prop :=
  match fs with [] => True | f :: fs => ~ eof_read a f /\ goes (a + len f) fs end.

Lemma shown_eof : forall r a f, shown r = read a f -> (ended (told V r) = true <-> eof_read a f).
Proof.
  intros r a f E. rewrite told_ended. unfold eof_read. rewrite <- E. destruct r as [e|[b md]]; cbn.
  - split; [intros H; now exists e|]. intros (e' & H & H'). now injection H as ->.
  - split; [discriminate|]. intros (e' & H & _). discriminate.
Qed.

Lemma drain_eof_is : forall fs n fs2 tl pos y, drop pos whole = concat fs ++ (concat fs2 ++ tl) ++ y ->
  Forall (frame o) fs -> Forall (frame o) fs2 -> unfinished o tl -> (length fs <= n)%nat ->
  goes (base + pos) fs ->
  (fs2 = [] \/ exists f fs3, fs2 = f :: fs3 /\ eof_read (base + pos + len (concat fs)) f) ->
  exists rs, drain_eof pl PB open o V n pos (concat fs ++ concat fs2 ++ tl) =
      (map (told V) rs, (pos + len (concat fs), concat fs2 ++ tl)) /\
    map shown rs = placed read (base + pos) fs.
Proof.
  intros fs. induction fs as [|f fs IH]; intros n fs2 tl pos y E F F2 U Hn Hg Hs.
  - exists []. split; [|reflexivity]. change (len (concat [])) with 0 in *. rewrite N.add_0_r in *. cbn [concat app map] in *.
    destruct n; [reflexivity|]. cbn [drain_eof]. cbv zeta.
    destruct Hs as [-> |(f & fs3 & -> & He)].
    + destruct (Hcut pos tl y) as (e & p' & G & He); [exact E|exact U|]. cbn [concat app]. rewrite (G O V). cbn [fst ended].
      now rewrite He.
    + inversion F2; subst. cbn [concat] in *.
      destruct (Hopen pos f (concat fs3 ++ tl) y) as (r & p' & G & Hr); [now rewrite E, <- !app_assoc|assumption|].
      rewrite <- app_assoc, (G O V). cbn [fst]. fold (told V r).
      now rewrite (proj2 (shown_eof r _ _ Hr) He).
  - inversion F as [|? ? Hf F']; subst. destruct n as [|n]; [cbn in Hn; lia|]. cbn [concat] in *.
    rewrite <- app_assoc in E. destruct Hg as [Hg1 Hg].
    destruct (Hopen pos f (concat fs ++ concat fs2 ++ tl) y) as (r & p' & G & Hr); [now rewrite E, <- !app_assoc|exact Hf|].
    assert (E' : drop (pos + len f) whole = concat fs ++ (concat fs2 ++ tl) ++ y) by now apply drop_step.
    destruct (IH n fs2 tl (pos + len f) y E' F' F2 U) as (rs & D & M); [cbn in Hn; lia| | |].
    { rewrite N.add_assoc. exact Hg. }
    { destruct Hs as [->|(g & fs3 & -> & He)]; [now left|]. right. exists g, fs3. split; [reflexivity|].
      rewrite len_app in He. rewrite !N.add_assoc in *. exact He. }
    exists (r :: rs). cbn [drain_eof map placed]. cbv zeta. rewrite <- app_assoc, (G O V). cbn [fst]. fold (told V r).
    destruct (ended (told V r)) eqn:Ee.
    { destruct Hg1. now apply (shown_eof r _ _ Hr). }
    pose proof (frame_min _ _ Hf) as [H8 _]. rewrite size_app by exact H8.
    replace (N.max 8 (size_of o f)) with (len f) by apply Hf.
    rewrite drop_app_exact by reflexivity. rewrite D.
    split; [|rewrite Hr, M, N.add_assoc; reflexivity].
    rewrite len_app, N.add_assoc. reflexivity.
Qed.

Lemma goes_app : forall fs a gs, goes a (fs ++ gs) <-> goes a fs /\ goes (a + len (concat fs)) gs.
Proof.
  intros fs. induction fs as [|f fs IH]; intros a gs; cbn [app goes concat].
  - change (len (@nil N)) with 0. rewrite N.add_0_r. tauto.
  - rewrite IH, len_app, N.add_assoc. tauto.
Qed.

Lemma follow_eof_is : forall ds fs fs2 tl pos l, drop pos whole = l ++ concat ds ->
  l ++ concat ds = concat fs ++ concat fs2 ++ tl -> bytes (l ++ concat ds) ->
  Forall (frame o) fs -> Forall (frame o) fs2 -> unfinished o tl -> goes (base + pos) fs ->
  (fs2 = [] \/ exists f fs3, fs2 = f :: fs3 /\ eof_read (base + pos + len (concat fs)) f) ->
  unfinished o l \/ fs = [] ->
  exists rs, concat (fst (follow (drain_eof pl PB open o V) pos l ds)) = map (told V) rs /\
    map shown rs = placed read (base + pos) fs /\
    snd (follow (drain_eof pl PB open o V) pos l ds) = (pos + len (concat fs), concat fs2 ++ tl).
Proof.
  intros ds. induction ds as [|d ds IH]; intros fs fs2 tl pos l E El B F F2 U Hg Hs Hl.
  - cbn [concat] in El. rewrite app_nil_r in El. assert (fs = []) as ->.
    { destruct Hl as [Ul|Hl]; [|exact Hl]. rewrite app_assoc, <- concat_app in El. change l with (concat [] ++ l) in El.
      destruct (frames_unique o [] l (fs ++ fs2) tl El (Forall_nil _) Ul) as [H _]; [now apply Forall_app|exact U|].
      destruct fs; [reflexivity|discriminate]. }
    exists []. cbn. rewrite N.add_0_r. rewrite El. now repeat split.
  - cbn [concat] in E, El, B. rewrite app_assoc in E, El, B. cbn [follow].
    assert (Bl : bytes (l ++ d)) by (apply Forall_app in B; apply B).
    destruct (frames_exist o (length (l ++ d)) (l ++ d)) as (g & t & E1 & G & T); [unfold len; lia|exact Bl|].
    rewrite E1 in E, El, B. rewrite <- app_assoc in E, El, B. rewrite (app_assoc (concat fs)), <- concat_app in El.
    destruct (frames_more o g t (concat ds) (fs ++ fs2) tl El G) as (h & Eh & E2); [now apply Forall_app|exact U| |].
    { apply Forall_app in B. apply B. }
    assert (Few : (length g <= length (l ++ d))%nat) by (rewrite E1; eapply frames_few, G).
    assert (Bt : bytes (t ++ concat ds)) by (apply Forall_app in B; apply B).
    assert (First : forall m, fs = g ++ m -> h = m ++ fs2 ->
      exists rs, concat (fst (let '(rs, (pos, l)) := drain_eof pl PB open o V (length (l ++ d)) pos (l ++ d) in
          let '(rss, st) := follow (drain_eof pl PB open o V) pos l ds in (rs :: rss, st))) = map (told V) rs /\
        map shown rs = placed read (base + pos) fs /\
        snd (let '(rs, (pos, l)) := drain_eof pl PB open o V (length (l ++ d)) pos (l ++ d) in
          let '(rss, st) := follow (drain_eof pl PB open o V) pos l ds in (rs :: rss, st)) =
          (pos + len (concat fs), concat fs2 ++ tl)).
    { intros m -> ->. apply goes_app in Hg as [Hg1 Hg2]. apply Forall_app in F as [_ Fm].
      destruct (drain_eof_is g (length (l ++ d)) [] t pos (concat ds)) as (rs1 & D & M1); try assumption.
      { constructor. } { now left. }
      cbn [concat app] in D. rewrite <- E1 in D. rewrite D.
      destruct (IH m fs2 tl (pos + len (concat g)) t) as (rs2 & R & M2 & St); try assumption.
      { apply (drop_step pos (concat g)). exact E. }
      { rewrite E2, concat_app. symmetry. apply app_assoc. }
      { rewrite N.add_assoc. exact Hg2. }
      { destruct Hs as [->|(f & fs3 & -> & He)]; [now left|]. right. exists f, fs3. split; [reflexivity|].
        rewrite concat_app, len_app in He. rewrite !N.add_assoc in *. exact He. }
      { now left. }
      destruct (follow (drain_eof pl PB open o V) (pos + len (concat g)) t ds) as [rss st]. cbn [fst snd] in *.
      exists (rs1 ++ rs2). cbn [concat]. rewrite R, !map_app, M1, M2, placed_app, N.add_assoc.
      split; [reflexivity|]. split; [reflexivity|]. rewrite St, concat_app, len_app, N.add_assoc. reflexivity. }
    symmetry in Eh. destruct (app_eq_app _ _ _ _ Eh) as (m & [[H1 H2]|[H1 H2]]).
    + destruct m as [|f m].
      { apply (First []); [now rewrite app_nil_r in *|now rewrite H2]. }
      destruct Hs as [->|(f' & fs3 & Ef & He)]; [discriminate|]. rewrite Ef in H2. injection H2 as -> ->.
      subst g. apply Forall_app in G as [_ Gm].
      destruct (drain_eof_is fs (length (l ++ d)) (f :: m) t pos (concat ds)) as (rs1 & D & M1); try assumption.
      { rewrite concat_app in E. rewrite E, <- !app_assoc. reflexivity. }
      { rewrite app_length in Few. lia. }
      { right. now exists f, m. }
      rewrite concat_app, <- app_assoc in E1. rewrite <- E1 in D. rewrite D.
      destruct (IH [] fs2 tl (pos + len (concat fs)) (concat (f :: m) ++ t)) as (rs2 & R & M2 & St); try assumption.
      { apply (drop_step pos (concat fs)). rewrite concat_app in E. rewrite E, <- !app_assoc. reflexivity. }
      { cbn [concat app]. rewrite Ef. change (f :: m ++ h) with ((f :: m) ++ h). rewrite concat_app, <- !app_assoc, E2.
        cbn [concat]. now rewrite <- !app_assoc. }
      { rewrite <- app_assoc. apply Forall_app. split; [|exact Bt]. apply Forall_app in B as [B _].
        rewrite concat_app in B. apply Forall_app in B. apply B. }
      { constructor. }
      { exact I. }
      { right. exists f, (m ++ h). split; [exact Ef|]. cbn [concat]. change (len (@nil N)) with 0. rewrite N.add_0_r, N.add_assoc.
        exact He. }
      { now right. }
      destruct (follow (drain_eof pl PB open o V) (pos + len (concat fs)) (concat (f :: m) ++ t) ds) as [rss st].
      cbn [fst snd] in *. exists (rs1 ++ rs2). cbn [concat] in *. rewrite R, !map_app, M1, M2. cbn [placed].
      rewrite app_nil_r. split; [reflexivity|]. split; [reflexivity|]. rewrite St. change (len (@nil N)) with 0.
      now rewrite N.add_0_r.
    + now apply (First m).
Qed.

End Drain.
