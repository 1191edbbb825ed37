(** Whatever a source does short of an empty chunk, what [parse_record] makes of
    it is what it makes of some chunks, handed out by a source which keeps all the
    rules. *)
From Coq Require Import NArith List Bool Lia.
From Verif Require Import Base BaseFacts Types Platform Config Buf Parser Contract Flat Refine.
From Verif Require Import Instances Prims Slices Records Sample Record Attr RefTop Rogue.
Import ListNotations.
Open Scope N_scope.

Lemma joined_app : forall a b, joined (a ++ b) = joined a ++ joined b.
Proof. intros. unfold joined. now rewrite map_app, concat_app. Qed.

Lemma joined_cons : forall c t, joined (c :: t) = chunk_data c ++ joined t.
Proof. reflexivity. Qed.

Lemma fair_bytes : forall mem cs, Forall (fair mem) cs -> bytes (joined cs).
Proof.
  intros mem cs H; induction H as [|c t (_ & Hb & _) _ IH]; [constructor|].
  rewrite joined_cons. apply Forall_app; auto.
Qed.

Lemma fair_truncate : forall mem c n, fair mem c -> 0 < n -> fair mem (chunk_truncate c n).
Proof.
  intros mem c n (Hne & Hb & Hm) Hn. unfold fair. rewrite chunk_truncate_data.
  split; [|split].
  - apply len_pos in Hne. apply len_pos_inv. rewrite len_take. lia.
  - now apply bytes_take.
  - unfold chunk_truncate. destruct (len (chunk_data c) <=? n); [assumption|].
    destruct c; [exact Logic.I|]. now apply mem_at_take.
Qed.

Lemma fair_list_ok : forall mem cs a, Forall (fair mem) cs -> list_ok AnyExt mem cs a.
Proof.
  intros mem cs a H; revert a; induction H as [|c t (Hne & Hb & Hm) _ IH]; intros a; [exact Logic.I|].
  cbn [list_ok]. split; [assumption|]. split; [|apply IH].
  destruct c; [discriminate|auto].
Qed.

Lemma given_contract : forall fin cap mem, 16384 <= cap ->
  contract (given fin) AnyExt fin cap mem (chunklist_rep AnyExt mem).
Proof.
  intros fin cap mem Hcap. pose proof (chunklist_contract AnyExt cap mem Hcap) as H. constructor.
  - intros s a [H1 H2]. exists s; split; [|split; assumption].
    destruct s as [|c t]; [reflexivity|]. cbn in H1, H2.
    symmetry in H2; apply app_eq_nil in H2 as [H2 _]; tauto.
  - intros s l a Hr Hl. destruct (ct_chunk H s l a Hr Hl) as (c & s' & E & R).
    exists c, s'. split; [|exact R].
    destruct s as [|c0 t]; [destruct Hr as [_ Hr]; cbn in Hr; congruence|exact E].
  - intros s l a h _ E; discriminate.
  - intros; exact Hcap.
Qed.

Lemma drop_nothing : forall mem cs, Forall (fair mem) cs -> chunklist_drop 0 cs = cs.
Proof.
  intros mem cs H. destruct H as [|c t (Hne & _) _]; [reflexivity|]. cbn [chunklist_drop].
  replace (0 <? len (chunk_data c)) with true by (symmetry; apply N.ltb_lt, len_pos; assumption).
  f_equal. destruct c; cbn; now rewrite ?drop_0, ?N.add_0_r.
Qed.

Lemma drop_first : forall mem c cs, Forall (fair mem) cs ->
  chunklist_drop (len (chunk_data c)) (c :: cs) = cs.
Proof.
  intros mem c cs H. cbn [chunklist_drop]. rewrite N.ltb_irrefl, N.sub_diag.
  now apply drop_nothing with mem.
Qed.

Lemma given_lively : forall fin mem, lively (given fin) mem (Forall (fair mem)) (fun _ => 0) 0.
Proof.
  intros fin mem s Hs. split; [reflexivity|]. destruct Hs as [|c t Hc Ht].
  - exists (Err fin), []. repeat split. constructor.
  - exists (Ok c), (c :: t). split; [reflexivity|]. split; [now constructor|]. left. split; [assumption|].
    intros n Hn. exists (chunklist_drop n (c :: t)). split; [reflexivity|].
    cbn [chunklist_drop]. destruct (N.ltb_spec n (len (chunk_data c))) as [Hlt|Hge].
    + constructor; [|assumption]. destruct Hc as (Hne & Hb & Hm).
      unfold fair. rewrite chunk_drop_data. split; [|split].
      * apply len_pos_inv. rewrite len_drop. lia.
      * now apply bytes_drop.
      * destruct c; cbn; [exact Logic.I|now apply mem_at_drop].
    + replace (n - len (chunk_data c)) with 0 by lia. now rewrite (drop_nothing mem).
Qed.

(** * What the two methods used for a record do on a lively source *)

Section Run.
Context (pl : platform) {S : Type} (PB : parsebuf S) (mem : memory) (I : S -> Prop)
  (rank : S -> N) (B : N) (HL : lively PB mem I rank B).

Definition kept (p p' : parser S) : Prop :=
  p_cfg p' = p_cfg p /\ p_log p' = p_log p /\ I (p_buf p').

Lemma kept_trans : forall p q r, kept p q -> kept q r -> kept p r.
Proof. unfold kept; intros p q r (A & G & _) (C & D & E); repeat split; congruence. Qed.

Lemma rank_le : forall p, I (p_buf p) -> rank (p_buf p) <= B.
Proof. intros p Hp. exact (proj1 (HL _ Hp)). Qed.

Lemma chunk_runs : forall p, I (p_buf p) ->
  exists r p', m_chunk PB p = (r, p') /\ kept p p' /\ p_off p' = p_off p /\
  match r with
  | Ok c =>
      (fair mem c /\ forall n, n <= len (chunk_data c) ->
       exists p'', m_advance PB n p' = (Ok tt, p'') /\ kept p p'' /\ p_off p'' = p_off p + n) \/
      (chunk_data c = [] /\
       exists p'', m_advance PB 0 p' = (Ok tt, p'') /\ kept p p'' /\ p_off p'' = p_off p /\
         rank (p_buf p'') < rank (p_buf p))
  | Err _ => True
  | _ => False
  end.
Proof.
  intros p Hp. destruct (HL _ Hp) as (_ & r & s' & E & Hs & H).
  unfold m_chunk. rewrite E. eexists r, _. split; [reflexivity|].
  split; [repeat split; assumption|]. split; [reflexivity|].
  destruct r as [c|e| |]; try assumption.
  destruct H as [[Hc H]|(Hc & s'' & E' & Hs'' & Hr)]; [left|right]; (split; [assumption|]).
  - intros n Hn. destruct (H n Hn) as (s'' & E' & Hs''). unfold m_advance; cbn [p_buf]. rewrite E'.
    eexists. split; [reflexivity|]. split; [repeat split; assumption|reflexivity].
  - unfold m_advance; cbn [p_buf]. rewrite E'. eexists. split; [reflexivity|].
    split; [repeat split; assumption|]. split; [cbn; apply N.add_0_r|assumption].
Qed.

(** How far a loop which needs [n] more bytes is from its end. *)
Definition ahead (n : N) (p : parser S) : N := n * (B + 1) + rank (p_buf p).

Lemma ahead_less : forall n n' p p', I (p_buf p) -> I (p_buf p') -> n' < n -> ahead n' p' < ahead n p.
Proof.
  intros n n' p p' _ Hp Hn. unfold ahead. pose proof (rank_le p' Hp).
  assert ((n' + 1) * (B + 1) <= n * (B + 1)) by (apply N.mul_le_mono_r; lia). lia.
Qed.

Lemma ahead_bound : forall n p, I (p_buf p) -> (n + 1) * (B + 1) <= 2 ^ 64 -> ahead n p < 2 ^ 64.
Proof. intros n p Hp H. pose proof (rank_le p Hp). unfold ahead. lia. Qed.

Definition bring (n : N) (p : parser S) (r : out (list N)) (p' : parser S) : Prop :=
  kept p p' /\ exists d, bytes d /\ p_off p' = p_off p + len d /\
  match r with
  | Ok x => x = d /\ len d = n
  | Err _ => len d < n
  | _ => False
  end.

Lemma to_slice_runs : forall n p, (n + 1) * (B + 1) <= 2 ^ 64 -> I (p_buf p) ->
  exists r p', parse_to_slice PB n p = (r, p') /\ bring n p r p'.
Proof.
  intros n p Hn Hp. unfold parse_to_slice.
  match goal with |- context [loop ?b _ _] => set (body := b) end.
  pose proof (loop_rule body (fun k x p => k = ahead (fst x) p /\ I (p_buf p))
    (fun x p rp => exists d, kept p (snd rp) /\ bytes d /\ p_off (snd rp) = p_off p + len d /\
       match fst rp with
       | Ok y => y = snd x ++ d /\ len d = fst x
       | Err _ => len d < fst x
       | _ => False
       end)) as H.
  assert (Hb : forall k x p0, k = ahead (fst x) p0 /\ I (p_buf p0) ->
     match body x p0 with
     | (Ok (inl y), p') => exists k', k' < k /\ (k' = ahead (fst y) p' /\ I (p_buf p')) /\
        (forall rp, (exists d, kept p' (snd rp) /\ bytes d /\ p_off (snd rp) = p_off p' + len d /\
           match fst rp with
           | Ok z => z = snd y ++ d /\ len d = fst y
           | Err _ => len d < fst y
           | _ => False
           end) ->
         exists d, kept p0 (snd rp) /\ bytes d /\ p_off (snd rp) = p_off p0 + len d /\
           match fst rp with
           | Ok z => z = snd x ++ d /\ len d = fst x
           | Err _ => len d < fst x
           | _ => False
           end)
     | (Ok (inr b), p') => exists d, kept p0 p' /\ bytes d /\ p_off p' = p_off p0 + len d /\
         (b = snd x ++ d /\ len d = fst x)
     | (Err e, p') => exists d, kept p0 p' /\ bytes d /\ p_off p' = p_off p0 + len d /\ len d < fst x
     | _ => False
     end).
  { intros k [m dst] p0 [-> Hp0]. cbn [fst snd]. unfold body; cbv beta iota zeta.
    destruct (N.eqb_spec m 0) as [->|Hm].
    - cbn. exists []. rewrite app_nil_r, N.add_0_r. repeat split; [assumption|constructor].
    - unfold bind. destruct (chunk_runs p0 Hp0) as (r & p1 & E & Hk & Ho & Hr). rewrite E.
      destruct r as [c|e| |]; try contradiction.
      + destruct Hr as [[(Hne & Hbb & _) Hr]|(Hc & p2 & E2 & Hk2 & Ho2 & Hrk)].
        2: { assert (Hz : len (chunk_data c) = 0) by (rewrite Hc; reflexivity). rewrite Hz, N.min_0_l, E2. cbn [ret].
          exists (ahead (m - 0) p2). cbn [fst snd]. rewrite N.sub_0_r.
          split; [unfold ahead; lia|]. split; [split; [reflexivity|exact (proj2 (proj2 Hk2))]|].
          intros [r3 p3] (d & Hk3 & Hd & Ho3 & Hr3). cbn [fst snd] in *.
          rewrite take_0, app_nil_r in Hr3. exists d.
          split; [now apply (kept_trans p0 p2)|]. split; [assumption|]. split; [congruence|assumption]. }
        apply len_pos in Hne.
        destruct (Hr (N.min (len (chunk_data c)) m) ltac:(lia)) as (p2 & E2 & Hk2 & Ho2).
        rewrite E2. cbn [ret]. exists (ahead (m - N.min (len (chunk_data c)) m) p2). cbn [fst snd].
        split; [apply ahead_less; [assumption|exact (proj2 (proj2 Hk2))|lia]|].
        split; [split; [reflexivity|exact (proj2 (proj2 Hk2))]|].
        intros [r3 p3] (d & Hk3 & Hd & Ho3 & Hr3). cbn [fst snd] in *.
        exists (take (N.min (len (chunk_data c)) m) (chunk_data c) ++ d).
        rewrite len_app, len_take.
        split; [now apply (kept_trans p0 p2)|]. split; [apply Forall_app; split; [now apply bytes_take|assumption]|].
        split; [rewrite Ho3, Ho2; lia|].
        destruct r3; try contradiction.
        * destruct Hr3 as [-> Hr3]. rewrite app_assoc. split; [reflexivity|lia].
        * lia.
      + exists []. rewrite N.add_0_r. repeat split; try apply Hk; [constructor|assumption|cbn; lia]. }
  assert (G := H ltac:(intros k x p0 Hk; specialize (Hb k x p0 Hk); cbv beta in *;
    destruct (body x p0) as [[[y|b]|e| |] p']; cbn [fst snd] in *; auto; contradiction)
    (ahead n p) (n, []) p (conj eq_refl Hp) (ahead_bound n p Hp Hn)).
  cbn [fst snd] in G. destruct (loop body (n, []) p) as [r p'].
  exists r, p'. split; [reflexivity|]. destruct G as (d & Hk & Hd & Ho & Hr); cbn [fst snd] in *.
  split; [assumption|]. exists d. repeat split; try assumption.
Qed.

Lemma array_runs : forall n p, 0 < n -> (n + 1) * (B + 1) <= 2 ^ 64 -> I (p_buf p) ->
  exists r p', parse_array PB n p = (r, p') /\ bring n p r p'.
Proof.
  intros n p Hz Hn Hp. unfold parse_array, bind.
  destruct (chunk_runs p Hp) as (r & p1 & E & Hk & Ho & Hr). rewrite E.
  destruct r as [c|e| |]; try contradiction.
  - assert (Hr' : fair mem c /\ (forall n, n <= len (chunk_data c) ->
       exists p'', m_advance PB n p1 = (Ok tt, p'') /\ kept p p'' /\ p_off p'' = p_off p + n) \/ len (chunk_data c) < n).
    { destruct Hr as [Hr|(-> & _)]; [now left|right; exact Hz]. }
    clear Hr. destruct (N.ltb_spec (len (chunk_data c)) n) as [Hlt|Hge].
    + destruct (to_slice_runs n p1 Hn (proj2 (proj2 Hk))) as (r2 & p2 & E2 & Hk2 & d & Hd & Ho2 & Hr2).
      exists r2, p2. split; [assumption|].
      split; [now apply (kept_trans p p1)|]. exists d. rewrite Ho2, Ho. auto.
    + destruct Hr' as [[(_ & Hb & _) Hr]|Hr]; [|lia].
      destruct (Hr n Hge) as (p2 & E2 & Hk2 & Ho2). rewrite E2. cbn [ret].
      eexists _, _. split; [reflexivity|].
      split; [assumption|]. exists (take n (chunk_data c)). rewrite len_take.
      split; [now apply bytes_take|]. split; [rewrite Ho2; lia|]. split; [reflexivity|lia].
  - exists (Err e), p1. split; [reflexivity|]. split; [assumption|].
    exists []. rewrite N.add_0_r. split; [constructor|]. split; [assumption|cbn; lia].
Qed.

Definition fetch (n : N) (p : parser S) (r : out (parser cursor)) (p' : parser S) : Prop :=
  kept p p' /\ exists cs, Forall (fair mem) cs /\ p_off p' = p_off p + len (joined cs) /\
  match r with
  | Ok q => q = new_parser (mkCursor (rev (map chunk_to_cow cs)) 0 n) (p_cfg p) /\ len (joined cs) = n
  | Err _ => len (joined cs) < n
  | _ => False
  end.

Lemma split_runs : forall n p, (n + 1) * (B + 1) <= 2 ^ 64 -> I (p_buf p) ->
  exists r p', split_at PB n p = (r, p') /\ fetch n p r p'.
Proof.
  intros n p Hn Hp. unfold split_at, cursor_new.
  match goal with |- context [loop ?b _] => set (body := b) end.
  set (Q := fun (x : N * list (cow N)) (p : parser S) (rp : out (list (cow N)) * parser S) =>
     exists cs, kept p (snd rp) /\ Forall (fair mem) cs /\
       p_off (snd rp) = p_off p + len (joined cs) /\
       match fst rp with
       | Ok y => y = snd x ++ map chunk_to_cow cs /\ len (joined cs) = fst x
       | Err _ => len (joined cs) < fst x
       | _ => False
       end).
  pose proof (loop_rule body (fun k x p => k = ahead (fst x) p /\ I (p_buf p)) Q) as H.
  assert (Hb : forall k x p0, k = ahead (fst x) p0 /\ I (p_buf p0) ->
     match body x p0 with
     | (Ok (inl y), p') => exists k', k' < k /\ (k' = ahead (fst y) p' /\ I (p_buf p')) /\
        (forall rp, Q y p' rp -> Q x p0 rp)
     | (Ok (inr b), p') => Q x p0 (Ok b, p')
     | (Err e, p') => Q x p0 (Err e, p')
     | (Panic, p') => Q x p0 (Panic, p')
     | (Fuel, p') => Q x p0 (Fuel, p')
     end).
  { intros k [m acc] p0 [-> Hp0]. cbn [fst snd]. unfold body; cbv beta iota zeta.
    destruct (N.eqb_spec m 0) as [->|Hm].
    - cbn. exists []. cbn. rewrite app_nil_r, N.add_0_r. repeat split; [assumption|constructor].
    - unfold bind. destruct (chunk_runs p0 Hp0) as (r & p1 & E & Hk & Ho & Hr). rewrite E.
      destruct r as [c|e| |]; try contradiction.
      + destruct Hr as [[Hc Hr]|(Hc & p2 & E2 & Hk2 & Ho2 & Hrk)].
        2: { assert (Et : chunk_data (chunk_truncate c m) = [])
            by (rewrite chunk_truncate_data, Hc; now destruct m).
          rewrite Et. change (len []) with 0. rewrite E2. cbn [ret].
          exists (ahead (m - 0) p2). cbn [fst snd]. rewrite N.sub_0_r.
          split; [unfold ahead; lia|]. split; [split; [reflexivity|exact (proj2 (proj2 Hk2))]|].
          intros [r3 p3] (cs & Hk3 & Hd & Ho3 & Hr3). cbn [fst snd] in *. exists cs. cbn [fst snd].
          split; [now apply (kept_trans p0 p2)|]. split; [assumption|]. split; [congruence|assumption]. }
        pose proof (fair_truncate mem c m Hc ltac:(lia)) as Hf.
        pose proof (proj1 Hf) as Hne. apply len_pos in Hne.
        assert (Hle : len (chunk_data (chunk_truncate c m)) <= m /\
                      len (chunk_data (chunk_truncate c m)) <= len (chunk_data c))
          by (rewrite chunk_truncate_data, len_take; lia).
        destruct (Hr (len (chunk_data (chunk_truncate c m))) (proj2 Hle)) as (p2 & E2 & Hk2 & Ho2).
        rewrite E2. replace (0 <? len (chunk_data (chunk_truncate c m))) with true
          by (symmetry; apply N.ltb_lt; lia).
        cbn [ret]. exists (ahead (m - len (chunk_data (chunk_truncate c m))) p2). cbn [fst snd].
        split; [apply ahead_less; [assumption|exact (proj2 (proj2 Hk2))|lia]|]. split; [split; [reflexivity|exact (proj2 (proj2 Hk2))]|].
        intros [r3 p3] (cs & Hk3 & Hd & Ho3 & Hr3). cbn [fst snd] in *.
        exists (chunk_truncate c m :: cs).
        rewrite joined_cons, len_app. cbn [fst snd].
        split; [now apply (kept_trans p0 p2)|]. split; [now constructor|].
        split; [rewrite Ho3, Ho2; lia|].
        destruct r3; try contradiction.
        * destruct Hr3 as [-> Hr3]. cbn [map]. rewrite <- app_assoc. split; [reflexivity|lia].
        * lia.
      + exists []. cbn. rewrite N.add_0_r. repeat split; try apply Hk; [constructor|assumption|lia]. }
  specialize (H Hb (ahead n p) (n, []) p (conj eq_refl Hp) (ahead_bound n p Hp Hn)).
  unfold bind, get_cfg, ret. cbn [fst snd] in H.
  destruct H as (cs & Hk & Hd & Ho & Hr).
  destruct (loop body (n, []) p) as [r p']. cbn [fst snd] in *.
  destruct r as [y|e| |]; try contradiction.
  - destruct Hr as [-> Hr]. eexists _, p'. split; [reflexivity|]. split; [assumption|].
    exists cs. rewrite (proj1 Hk). auto.
  - exists (Err e), p'. split; [reflexivity|]. split; [assumption|]. exists cs. auto.
Qed.

End Run.

(** * The same methods on the chunks of a list *)

Definition put (c : config) (cs : list chunk) (off : N) (log : list N) : parser (list chunk) :=
  mkParser c cs off log.

Lemma given_array_ok : forall fin mem n d rest c off log,
  Forall (fair mem) rest -> len d = n -> d <> [] ->
  parse_array (given fin) n (put c (Temporary d :: rest) off log) = (Ok d, put c rest (off + n) log).
Proof.
  intros fin mem n d rest c off log Hr Hn Hd. unfold parse_array, bind, m_chunk, m_advance, put, ret.
  cbn [p_buf p_cfg p_off p_log given pb_chunk pb_advance chunk_data].
  rewrite Hn, N.ltb_irrefl. cbn [p_buf p_cfg p_off p_log].
  assert (E : chunklist_drop n (Temporary d :: rest) = rest)
    by (rewrite <- Hn; now apply (drop_first mem (Temporary d))).
  rewrite E, take_all by lia. reflexivity.
Qed.

Lemma given_array_err : forall fin mem n cs c off log,
  Forall (fair mem) cs -> len (joined cs) < n -> n < 2 ^ 64 ->
  exists q, parse_array (given fin) n (put c cs off log) = (Err fin, q) /\
    p_off q = off + len (joined cs) /\ p_log q = log.
Proof.
  intros fin mem n cs c off log Hf Hlt Hn.
  assert (Hw : wf (joined cs)) by (split; [now apply fair_bytes with mem|lia]).
  assert (Hr : chunklist_rep AnyExt mem (p_buf (put c cs off log)) (joined cs) (0 + 0))
    by (split; [now apply fair_list_ok|reflexivity]).
  pose proof (Ref_array (given fin) AnyExt fin 16384 mem _ 0 (given_contract fin 16384 mem ltac:(lia))
    n (put c cs off log) (joined cs) 0 Hr Hw) as H.
  destruct (array_runs (given fin) mem _ _ _ (given_lively fin mem) n (put c cs off log) ltac:(lia) ltac:(lia) Hf)
    as (r & p' & E & (Hk & d & _)).
  assert (Ef : f_take n (mkEnv c fin) (joined cs) 0 = FErr fin [] (0 + len (joined cs)) []).
  { unfold f_take; cbn [fe_fin]. destruct (joined cs) as [|b l]; [reflexivity|].
    now replace (len (b :: l) <? n) with true by (symmetry; now apply N.ltb_lt). }
  cbn [put p_cfg] in H. unfold put in H; cbn [p_cfg] in H. rewrite Ef in H.
  destruct (H ltac:(constructor)) as (q & Eq & Hs).
  exists q. split; [exact Eq|]. split.
  - destruct (st_len _ _ _ _ _ _ _ _ _ Hs) as (k & _ & _ & Hk' & Ho). cbn in Ho. rewrite Ho. lia.
  - unfold put in E. rewrite E in Eq. injection Eq as -> ->. exact (proj1 (proj2 Hk)).
Qed.

Lemma given_split_err : forall fin mem n cs c off log,
  Forall (fair mem) cs -> len (joined cs) < n -> n < 2 ^ 64 ->
  exists q, split_at (given fin) n (put c cs off log) = (Err fin, q) /\
    p_off q = off + len (joined cs) /\ p_log q = log.
Proof.
  intros fin mem n cs c off log Hf Hlt Hn.
  assert (Hw : wf (joined cs)) by (split; [now apply fair_bytes with mem|lia]).
  assert (Hr : chunklist_rep AnyExt mem (p_buf (put c cs off log)) (joined cs) (0 + 0))
    by (split; [now apply fair_list_ok|reflexivity]).
  pose proof (split_spec (given fin) AnyExt fin 16384 mem _ 0 (given_contract fin 16384 mem ltac:(lia))
    n (put c cs off log) (joined cs) 0 Hr Hw) as H.
  destruct (split_runs (given fin) mem _ _ _ (given_lively fin mem) n (put c cs off log) ltac:(lia) Hf)
    as (r & p' & E & (Hk & _)).
  assert (Ef : f_split n (mkEnv c fin) (joined cs) 0 = FErr fin [] (0 + len (joined cs)) []).
  { unfold f_split. destruct (N.eqb_spec n 0); [lia|].
    unfold f_take; cbn [fe_fin]. destruct (joined cs) as [|b l]; [reflexivity|].
    now replace (len (b :: l) <? n) with true by (symmetry; now apply N.ltb_lt). }
  unfold put in H; cbn [p_cfg] in H. rewrite Ef in H.
  destruct H as (q & Eq & Hs & _).
  exists q. split; [exact Eq|]. split.
  - destruct (st_len _ _ _ _ _ _ _ _ _ Hs) as (k & _ & _ & Hk' & Ho). cbn in Ho. rewrite Ho. lia.
  - unfold put in E. rewrite E in Eq. injection Eq as -> ->. exact (proj1 (proj2 Hk)).
Qed.

Lemma given_split_ok : forall fin mem n cs rest c off log,
  Forall (fair mem) cs -> Forall (fair mem) rest -> len (joined cs) = n -> n < 2 ^ 64 ->
  split_at (given fin) n (put c (cs ++ rest) off log) =
  (Ok (new_parser (mkCursor (rev (map chunk_to_cow cs)) 0 n) c), put c rest (off + n) log).
Proof.
  intros fin mem n cs rest c off log Hc Hrest Hj Hn. unfold split_at, cursor_new.
  match goal with |- context [loop ?b _] => set (body := b) end.
  set (Q := fun (x : N * list (cow N)) (p : parser (list chunk)) (rp : out (list (cow N)) * parser (list chunk)) =>
     forall cs, Forall (fair mem) cs -> p_buf p = cs ++ rest -> len (joined cs) = fst x ->
       rp = (Ok (snd x ++ map chunk_to_cow cs), put (p_cfg p) rest (p_off p + fst x) (p_log p))).
  set (J := fun k (x : N * list (cow N)) (p : parser (list chunk)) => k = fst x /\
     exists cs, Forall (fair mem) cs /\ p_buf p = cs ++ rest /\ len (joined cs) = fst x).
  pose proof (loop_rule body J Q) as H.
  assert (Hb : forall k x p0, J k x p0 ->
     match body x p0 with
     | (Ok (inl y), p') => exists k', k' < k /\ J k' y p' /\ (forall rp, Q y p' rp -> Q x p0 rp)
     | (Ok (inr b), p') => Q x p0 (Ok b, p')
     | (Err e, p') => Q x p0 (Err e, p')
     | (Panic, p') => Q x p0 (Panic, p')
     | (Fuel, p') => Q x p0 (Fuel, p')
     end).
  { intros k [m acc] p0 (-> & cs0 & Hf & Hb & Hl). cbn [fst snd] in *. unfold body; cbv beta iota zeta.
    destruct (N.eqb_spec m 0) as [->|Hm].
    - cbn. intros cs1 Hf1 Hb1 Hl1. cbn [fst snd] in *.
      destruct Hf1 as [|c1 t1 (Hne & _) _].
      + cbn. rewrite app_nil_r, N.add_0_r. unfold put. cbn in Hb1. rewrite <- Hb1. now destruct p0.
      + rewrite joined_cons, len_app in Hl1. apply len_pos in Hne. lia.
    - destruct Hf as [|c1 t1 Hc1 Ht1]; [cbn in Hl; lia|].
      unfold bind, m_chunk, m_advance, ret. rewrite Hb.
      cbn [given pb_chunk pb_advance app p_buf p_cfg p_off p_log].
      rewrite joined_cons, len_app in Hl.
      assert (Et : chunk_truncate c1 m = c1).
      { unfold chunk_truncate. now replace (len (chunk_data c1) <=? m) with true by (symmetry; apply N.leb_le; lia). }
      rewrite Et. rewrite (drop_first mem c1) by (apply Forall_app; auto).
      pose proof (proj1 Hc1) as Hne. apply len_pos in Hne.
      replace (0 <? len (chunk_data c1)) with true by (symmetry; apply N.ltb_lt; lia).
      exists (m - len (chunk_data c1)). split; [lia|]. split.
      + split; [reflexivity|]. exists t1. cbn [p_buf fst]. repeat split; [assumption|lia].
      + intros rp HQ cs1 Hf1 Hb1 Hl1. cbn [fst snd] in *. rewrite Hb in Hb1. cbn [app] in Hb1.
        destruct Hf1 as [|c2 t2 Hc2 Ht2]; [cbn in Hl1; lia|]. cbn [app] in Hb1. injection Hb1 as <- Hb1.
        rewrite joined_cons, len_app in Hl1.
        rewrite (HQ t2 Ht2 ltac:(exact Hb1) ltac:(cbn [fst]; lia)). cbn [fst snd p_cfg p_off p_log map].
        rewrite <- app_assoc. unfold put.
        replace (p_off p0 + len (chunk_data c1) + (m - len (chunk_data c1))) with (p_off p0 + m) by lia.
        reflexivity. }
  assert (HJ : J n (n, []) (put c (cs ++ rest) off log)).
  { split; [reflexivity|]. exists cs. auto. }
  specialize (H Hb n (n, []) _ HJ Hn cs Hc eq_refl Hj).
  unfold bind, get_cfg, ret. rewrite H. reflexivity.
Qed.

(** The pieces of a cursor, the last first. *)
Lemma cursor_pieces : forall mem cs, Forall (fair mem) cs ->
  Forall (fun c => cow_list c <> []) (rev (map chunk_to_cow cs)) /\
  len (rev (map chunk_to_cow cs)) <= len (joined cs) /\
  len (concat (map cow_list (rev (map chunk_to_cow cs)))) = len (joined cs).
Proof.
  intros mem cs H; induction H as [|c t (Hne & _) _ (H1 & H2 & H3)]; [repeat split; [constructor|discriminate]|].
  assert (E : cow_list (chunk_to_cow c) = chunk_data c) by now destruct c.
  cbn [map rev]. rewrite map_app, concat_app, joined_cons, !len_app. cbn [map concat].
  rewrite app_nil_r, E, H3. apply len_pos in Hne as Hp.
  split; [apply Forall_app; split; [exact H1|constructor; [now rewrite E|constructor]]|].
  change (len [chunk_to_cow c]) with 1. lia.
Qed.

(** * A run, and the chunks it is a run of *)

Section Sim.
Context (pl : platform) {S : Type} (PB : parsebuf S) (mem : memory) (I : S -> Prop)
  (rank : S -> N) (Z : N) (HL : lively PB mem I rank Z) (HZ : Z < 2 ^ 48).

(** [m] takes no more than [B] bytes; there are chunks from which [m'] makes what
    [m] makes of the source. *)
Definition Sim {A : Type} (B : N) (Q : A -> Prop) (m : M S A) (m' : perror -> M (list chunk) A) : Prop :=
  forall p, I (p_buf p) ->
  exists r p', m p = (r, p') /\ I (p_buf p') /\ p_cfg p' = p_cfg p /\
  exists cs, Forall (fair mem) cs /\ len (joined cs) <= B /\
  match r with
  | Ok x => Q x /\ forall fin rest, Forall (fair mem) rest ->
      m' fin (put (p_cfg p) (cs ++ rest) (p_off p) (p_log p)) =
      (Ok x, put (p_cfg p) rest (p_off p') (p_log p'))
  | _ => exists fin q', m' fin (put (p_cfg p) cs (p_off p) (p_log p)) = (r, q') /\
      p_off q' = p_off p' /\ p_log q' = p_log p'
  end.

Lemma sim_bind : forall A C B B' (Q : A -> Prop) (R : C -> Prop) m m' k k',
  Sim B Q m m' -> (forall x, Q x -> Sim B' R (k x) (fun fin => k' fin x)) ->
  Sim (B + B') R (bind m k) (fun fin => bind (m' fin) (k' fin)).
Proof.
  intros A C B B' Q R m m' k k' Hm Hk p Hp. unfold bind.
  destruct (Hm p Hp) as (r & p1 & E & HI & Hc & cs & Hf & Hb & Hr). rewrite E.
  destruct r as [x|e| |].
  - destruct Hr as [HQ Hr]. destruct (Hk x HQ p1 HI) as (r2 & p2 & E2 & HI2 & Hc2 & cs2 & Hf2 & Hb2 & Hr2).
    exists r2, p2. split; [assumption|]. split; [assumption|]. split; [congruence|].
    exists (cs ++ cs2). split; [apply Forall_app; auto|].
    split; [rewrite joined_app, len_app; lia|].
    rewrite Hc in Hr2. destruct r2 as [y|e| |].
    + destruct Hr2 as [HR Hr2]. split; [assumption|]. intros fin rest Hrest.
      rewrite <- app_assoc. rewrite Hr by (apply Forall_app; auto). now apply Hr2.
    + destruct Hr2 as (fin & q' & Eq & Hq). exists fin, q'. rewrite Hr by assumption. auto.
    + destruct Hr2 as (fin & q' & Eq & Hq). exists fin, q'. rewrite Hr by assumption. auto.
    + destruct Hr2 as (fin & q' & Eq & Hq). exists fin, q'. rewrite Hr by assumption. auto.
  - exists (Err e), p1. split; [reflexivity|]. split; [assumption|]. split; [assumption|].
    exists cs. split; [assumption|]. split; [lia|].
    destruct Hr as (fin & q' & Eq & Hq). exists fin, q'. rewrite Eq. auto.
  - exists Panic, p1. split; [reflexivity|]. split; [assumption|]. split; [assumption|].
    exists cs. split; [assumption|]. split; [lia|].
    destruct Hr as (fin & q' & Eq & Hq). exists fin, q'. rewrite Eq. auto.
  - exists Fuel, p1. split; [reflexivity|]. split; [assumption|]. split; [assumption|].
    exists cs. split; [assumption|]. split; [lia|].
    destruct Hr as (fin & q' & Eq & Hq). exists fin, q'. rewrite Eq. auto.
Qed.

Lemma sim_ret : forall A B (Q : A -> Prop) x, Q x -> Sim B Q (ret x) (fun _ => ret x).
Proof.
  intros A B Q x HQ p Hp. exists (Ok x), p. split; [reflexivity|]. split; [assumption|].
  split; [reflexivity|]. exists []. split; [constructor|]. split; [cbn; lia|].
  split; [assumption|]. reflexivity.
Qed.

Lemma sim_fail : forall A B (Q : A -> Prop) e, Sim B Q (fail e) (fun _ => fail e).
Proof.
  intros A B Q e p Hp. exists (Err e), p. split; [reflexivity|]. split; [assumption|].
  split; [reflexivity|]. exists []. split; [constructor|]. split; [cbn; lia|].
  exists e. eexists. split; [reflexivity|]. auto.
Qed.

Lemma sim_panic : forall A B (Q : A -> Prop), Sim B Q panic (fun _ => panic).
Proof.
  intros A B Q p Hp. exists Panic, p. split; [reflexivity|]. split; [assumption|].
  split; [reflexivity|]. exists []. split; [constructor|]. split; [cbn; lia|].
  exists eof_error. eexists. split; [reflexivity|]. auto.
Qed.

Lemma sim_cfg : forall B, Sim B (fun _ => True) get_cfg (fun _ => get_cfg).
Proof.
  intros B p Hp. exists (Ok (p_cfg p)), p. split; [reflexivity|]. split; [assumption|].
  split; [reflexivity|]. exists []. split; [constructor|]. split; [cbn; lia|].
  split; [exact Logic.I|]. reflexivity.
Qed.

Lemma sim_sub : forall A S2 B (m : M S2 A) q, Sim B (fun _ => True) (sub m q) (fun _ => sub m q).
Proof.
  intros A S2 B m q p Hp. unfold sub. destruct (m q) as [r q'].
  eexists r, _. split; [reflexivity|]. split; [assumption|].
  split; [reflexivity|]. exists []. split; [constructor|]. split; [cbn; lia|].
  destruct r; [split; [exact Logic.I|reflexivity]| | |];
    exists eof_error; eexists; (split; [reflexivity|auto]).
Qed.

Lemma sim_weaken : forall A B B' (Q : A -> Prop) m m', Sim B Q m m' -> B <= B' -> Sim B' Q m m'.
Proof.
  intros A B B' Q m m' H Hle p Hp.
  destruct (H p Hp) as (r & p1 & E & HI & Hc & cs & Hf & Hb & Hr).
  exists r, p1. split; [assumption|]. split; [assumption|]. split; [assumption|].
  exists cs. split; [assumption|]. split; [lia|assumption].
Qed.

Lemma sim_array : forall n, 0 < n <= 8 ->
  Sim n (fun d => bytes d /\ len d = n) (parse_array PB n) (fun fin => parse_array (given fin) n).
Proof.
  intros n Hn p Hp. destruct (array_runs PB mem I rank Z HL n p (proj1 Hn) ltac:(nia) Hp) as (r & p' & E & (Hc & Hg & HI) & d & Hd & Ho & Hr).
  exists r, p'. split; [assumption|]. split; [assumption|]. split; [assumption|].
  destruct r as [x|e| |]; try contradiction.
  - destruct Hr as [-> Hr].
    assert (Hne : d <> []) by (apply len_pos_inv; lia).
    exists [Temporary d]. split; [constructor; [|constructor]; repeat split; assumption|].
    split; [rewrite joined_cons; cbn [chunk_data joined map concat]; rewrite len_app; cbn; lia|].
    split; [auto|]. intros fin rest Hrest. cbn [app].
    rewrite (given_array_ok fin mem n d) by assumption. rewrite Ho, Hr, Hg. reflexivity.
  - exists (match d with [] => [] | _ => [Temporary d] end).
    assert (Hj : joined (match d with [] => [] | _ => [Temporary d] end) = d)
      by (destruct d; [reflexivity|]; cbn; now rewrite app_nil_r).
    assert (Hf : Forall (fair mem) (match d with [] => [] | _ => [Temporary d] end))
      by (destruct d; [constructor|]; constructor; [|constructor]; repeat split; [discriminate|assumption]).
    split; [assumption|]. split; [rewrite Hj; lia|]. exists e.
    destruct (given_array_err e mem n _ (p_cfg p) (p_off p) (p_log p) Hf ltac:(rewrite Hj; lia) ltac:(lia))
      as (q & Eq & Hq & Hl).
    exists q. split; [assumption|]. rewrite Hj in Hq. split; congruence.
Qed.

Lemma sim_int : forall n, 0 < n <= 8 ->
  Sim n (fun v => v < 256 ^ n)
    (a <- parse_array PB n ;; c <- get_cfg ;; ret (convert pl (c_endian c) a))
    (fun fin => a <- parse_array (given fin) n ;; c <- get_cfg ;; ret (convert pl (c_endian c) a)).
Proof.
  intros n Hn. apply sim_weaken with (n + (0 + 0)); [|lia].
  apply (sim_bind _ _ n (0 + 0) (fun d => bytes d /\ len d = n)
    (fun v => v < 256 ^ n) _ _ _ (fun _ a => c <- get_cfg ;; ret (convert pl (c_endian c) a))
    (sim_array n Hn)).
  intros a [Ha Hl].
  apply (sim_bind _ _ 0 0 (fun _ => True) (fun v => v < 256 ^ n) _ _ _
    (fun _ c => ret (convert pl (c_endian c) a)) (sim_cfg 0)).
  intros c _. apply sim_ret. rewrite convert_order, <- Hl. now apply from_order_bound.
Qed.

Lemma sim_header : Sim 8 (fun h => h_size h < 65536) (parse_header pl PB) (fun fin => parse_header pl (given fin)).
Proof.
  unfold parse_header. change 8 with (4 + (2 + (2 + 0))).
  apply (sim_bind _ _ 4 (2 + (2 + 0)) (fun v => v < 256 ^ 4) (fun h => h_size h < 65536) _ _ _
    (fun fin t => m <- parse_u16 pl (given fin) ;; s <- parse_u16 pl (given fin) ;; ret (mkHeader t m s))
    (sim_int 4 ltac:(lia))).
  intros t _.
  apply (sim_bind _ _ 2 (2 + 0) (fun v => v < 256 ^ 2) (fun h => h_size h < 65536) _ _ _
    (fun fin m => s <- parse_u16 pl (given fin) ;; ret (mkHeader t m s))
    (sim_int 2 ltac:(lia))).
  intros m _.
  apply (sim_bind _ _ 2 0 (fun v => v < 256 ^ 2) (fun h => h_size h < 65536) _ _ _
    (fun fin s => ret (mkHeader t m s)) (sim_int 2 ltac:(lia))).
  intros s Hs. apply sim_ret. exact Hs.
Qed.

Lemma sim_split : forall n, (n + 1) * (Z + 1) <= 2 ^ 64 ->
  Sim n (fun _ => True) (split_at PB n) (fun fin => split_at (given fin) n).
Proof.
  intros n Hn p Hp. destruct (split_runs PB mem I rank Z HL n p Hn Hp) as (r & p' & E & (Hc & Hg & HI) & cs & Hf & Ho & Hr).
  exists r, p'. split; [assumption|]. split; [assumption|]. split; [assumption|].
  exists cs. split; [assumption|].
  destruct r as [x|e| |]; try contradiction.
  - destruct Hr as [-> Hr]. split; [lia|]. split; [exact Logic.I|]. intros fin rest Hrest.
    rewrite (given_split_ok fin mem n cs rest) by (assumption || nia). rewrite Ho, Hr, Hg. reflexivity.
  - split; [lia|]. exists e.
    destruct (given_split_err e mem n cs (p_cfg p) (p_off p) (p_log p) Hf Hr ltac:(nia)) as (q & Eq & Hq & Hl).
    exists q. split; [assumption|]. split; congruence.
Qed.

Lemma sim_metadata : forall h, h_size h < 65536 ->
  Sim 65527 (fun _ => True) (parse_metadata_with_header pl PB h)
    (fun fin => parse_metadata_with_header pl (given fin) h).
Proof.
  intros h Hh. unfold parse_metadata_with_header.
  destruct (checked_sub (h_size h) 8) as [n|] eqn:En; [|apply sim_fail].
  assert (Hn : n <= 65527).
  { unfold checked_sub in En. revert En. destruct (N.leb_spec 8 (h_size h)); intros En; inversion En; lia. }
  apply sim_weaken with (n + (0 + 0)); [|lia].
  apply (sim_bind _ _ n (0 + 0) (fun _ => True) (fun _ => True) _ _ _
    (fun _ rp => if (h_type h =? PERF_RECORD_MMAP) || (h_type h =? PERF_RECORD_SAMPLE)
      then ret (rp, new_metadata h sample_id_default)
      else
        match checked_sub n (estimate_len (p_cfg rp)) with
        | None => fail (custom_error KInvalidRecord MsgNoRoomForSampleId)
        | Some remaining_len =>
            r <- sub (p <- split_at cursor_buf remaining_len ;;
                      si <- parse_sample_id pl cursor_buf ;;
                      ret (p, si)) rp ;;
            ret (fst r, new_metadata h (snd r))
        end) (sim_split n ltac:(nia))).
  intros rp _. destruct ((h_type h =? PERF_RECORD_MMAP) || (h_type h =? PERF_RECORD_SAMPLE)).
  - now apply sim_ret.
  - destruct (checked_sub n (estimate_len (p_cfg rp))) as [k|]; [|apply sim_fail].
    apply (sim_bind _ _ 0 0 (fun _ => True) (fun _ => True) _ _ _
      (fun _ r => ret (fst r, new_metadata h (snd r)))); [apply sim_sub|].
    intros r _. now apply sim_ret.
Qed.

Lemma sim_record : forall O (V : visitor O),
  Sim 65535 (fun _ => True) (parse_record pl PB V) (fun fin => parse_record pl (given fin) V).
Proof.
  intros O V. unfold parse_record. change 65535 with (8 + (65527 + 0)).
  apply (sim_bind _ _ 8 (65527 + 0) (fun h => h_size h < 65536) (fun _ => True) _ _ _
    (fun fin h => parse_record_with_header pl (given fin) V h) sim_header).
  intros h Hh. unfold parse_record_with_header.
  apply (sim_bind _ _ 65527 0 (fun _ => True) (fun _ => True) _ _ _
    (fun _ r => let '(p, md) := r in
      match cursor_as_slice (p_buf p) with
      | Some data => parse_record_impl pl slice_buf V md data (p_cfg p)
      | None => parse_record_impl pl cursor_buf V md (p_buf p) (p_cfg p)
      end) (sim_metadata h Hh)).
  intros [q md] _. unfold parse_record_impl.
  destruct (cursor_as_slice (p_buf q)); apply sim_sub.
Qed.

Lemma sim_read_metadata : Sim 65535 (fun _ => True) (parse_metadata pl PB) (fun fin => parse_metadata pl (given fin)).
Proof.
  unfold parse_metadata. change 65535 with (8 + 65527).
  apply (sim_bind _ _ 8 65527 (fun h => h_size h < 65536) (fun _ => True) _ _ _
    (fun fin h => parse_metadata_with_header pl (given fin) h) sim_header).
  intros h Hh. now apply sim_metadata.
Qed.

Lemma sim_attr : Z < 2 ^ 31 ->
  Sim (2 ^ 32 + 8) (fun _ => True) (parse_attr pl PB) (fun fin => parse_attr pl (given fin)).
Proof.
  intros HZ31. unfold parse_attr. apply sim_weaken with (4 + (4 + (2 ^ 32 + 0))); [|lia].
  apply (sim_bind _ _ 4 (4 + (2 ^ 32 + 0)) (fun v => v < 256 ^ 4) (fun _ => True) _ _ _
    (fun fin t => size <- parse_u32 pl (given fin) ;;
      if negb (attr_size_ok size) then fail (custom_error KInvalidRecord (MsgAttrSize size))
      else match checked_sub (as_usize pl size) 4 with
           | None => panic
           | Some n => p <- split_at (given fin) n ;; sub (parse_attr_fields pl cursor_buf t size) p
           end) (sim_int 4 ltac:(lia))).
  intros t _.
  apply (sim_bind _ _ 4 (2 ^ 32 + 0) (fun v => v < 256 ^ 4) (fun _ => True) _ _ _
    (fun fin size =>
      if negb (attr_size_ok size) then fail (custom_error KInvalidRecord (MsgAttrSize size))
      else match checked_sub (as_usize pl size) 4 with
           | None => panic
           | Some n => p <- split_at (given fin) n ;; sub (parse_attr_fields pl cursor_buf t size) p
           end) (sim_int 4 ltac:(lia))).
  intros size Hs. destruct (attr_size_ok size) eqn:Es; [|apply sim_fail].
  cbn [negb]. clear Es.
  destruct (checked_sub (as_usize pl size) 4) as [n|] eqn:En; [|apply sim_panic].
  assert (Hn : n < 2 ^ 32).
  { unfold checked_sub in En. revert En. destruct (N.leb_spec 4 (as_usize pl size)); intros En; inversion En.
    assert (as_usize pl size <= size) by (apply N.mod_le; apply N.pow_nonzero; discriminate).
    clear - H H0 Hs. change (256 ^ 4) with (2 ^ 32) in Hs. lia. }
  apply (sim_bind _ _ (2 ^ 32) 0 (fun _ => True) (fun _ => True) _ _ _
    (fun fin p => sub (parse_attr_fields pl cursor_buf t size) p)).
  - apply sim_weaken with n; [apply sim_split; clear - Hn HZ31; nia|clear - Hn; lia].
  - intros q _. apply sim_sub.
Qed.

End Sim.

(** * Loops which are given nothing *)

Lemma loop_forever : forall S St B (body : St -> M S (St + B)) (J : St -> parser S -> Prop),
  (forall x p, J x p -> exists y p', body x p = (Ok (inl y), p') /\ J y p') ->
  forall x p, J x p -> exists p', loop body x p = (Fuel, p').
Proof.
  intros S St B body J H.
  assert (G : forall n x p, J x p -> exists y p', iter body n x p = (Ok (inl y), p') /\ J y p').
  { induction n as [|n IH]; intros x p Hx; [exists x, p; auto|].
    cbn [iter]. unfold bind. destruct (H x p Hx) as (y & p' & -> & Hy). now apply IH. }
  intros x p Hx. unfold loop, bind. rewrite loop_pos_iter.
  generalize (Pos.to_nat loop_fuel). intros n.
  destruct (G n x p Hx) as (y & p' & -> & _). exists p'. reflexivity.
Qed.

Lemma sim_same : forall S (I : S -> Prop) mem A B (Q : A -> Prop) m m', Sim (S := S) mem I B Q m m' ->
  forall p, I (p_buf p) ->
  exists cs fin, Forall (fair mem) cs /\ len (joined cs) <= B /\
    let honest := m' fin (mkParser (p_cfg p) cs (p_off p) (p_log p)) in
    let real := m p in
    fst real = fst honest /\ p_off (snd real) = p_off (snd honest) /\ p_log (snd real) = p_log (snd honest) /\
    p_cfg (snd real) = p_cfg p /\ I (p_buf (snd real)).
Proof.
  intros S I mem A B Q m m' HS p Hp.
  destruct (HS p Hp) as (r & p' & E & HI & Hc & cs & Hf & Hb & Hr).
  exists cs. destruct r as [x|e| |].
  - destruct Hr as [_ Hr]. exists eof_error. split; [exact Hf|]. split; [exact Hb|].
    specialize (Hr eof_error [] (Forall_nil _)). rewrite app_nil_r in Hr. unfold put in Hr.
    cbv zeta. rewrite E, Hr. auto.
  - destruct Hr as (fin & q & Eq & Ho & Hl). exists fin. split; [exact Hf|]. split; [exact Hb|].
    unfold put in Eq. cbv zeta. rewrite E, Eq. auto.
  - destruct Hr as (fin & q & Eq & Ho & Hl). exists fin. split; [exact Hf|]. split; [exact Hb|].
    unfold put in Eq. cbv zeta. rewrite E, Eq. auto.
  - destruct Hr as (fin & q & Eq & Ho & Hl). exists fin. split; [exact Hf|]. split; [exact Hb|].
    unfold put in Eq. cbv zeta. rewrite E, Eq. auto.
Qed.
