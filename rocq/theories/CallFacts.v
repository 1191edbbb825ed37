(** Sequences of calls to [chunk] and [advance] on the buffers of the crate. *)
From Coq Require Import NArith List Bool Lia.
From Verif Require Import Base BaseFacts Types Buf Contract Instances.
Import ListNotations.
Open Scope N_scope.

(** A call of one of the two methods that need [&mut self]. *)
Inductive call : Type := CChunk | CAdvance (n : N).

(** The buffer after a call, if it did not panic. *)
Definition do_call {S : Type} (PB : parsebuf S) (c : call) (s : S) : option S :=
  match c with
  | CChunk => match pb_chunk PB s with (Ok _, s') | (Err _, s') => Some s' | _ => None end
  | CAdvance n => match pb_advance PB s n with (Ok _, s') => Some s' | _ => None end
  end.

Fixpoint calls {S : Type} (PB : parsebuf S) (cs : list call) (s : S) : option S :=
  match cs with
  | [] => Some s
  | c :: t => match do_call PB c s with Some s' => calls PB t s' | None => None end
  end.

(** How far they advanced. *)
Fixpoint advanced (cs : list call) : N :=
  match cs with
  | [] => 0
  | CChunk :: t => advanced t
  | CAdvance n :: t => n + advanced t
  end.

(** [l] is what can be read from a buffer by asking for chunks and advancing
    past them until there are none. *)
Inductive remains {S : Type} (PB : parsebuf S) : S -> list N -> Prop :=
  | rem_end : forall s s', pb_chunk PB s = (Err eof_error, s') -> remains PB s []
  | rem_more : forall s s1 s2 c l, pb_chunk PB s = (Ok c, s1) -> chunk_data c <> [] ->
      pb_advance PB s1 (len (chunk_data c)) = (Ok tt, s2) -> remains PB s2 l ->
      remains PB s (chunk_data c ++ l).

Lemma remains_fun : forall S (PB : parsebuf S) s l1, remains PB s l1 ->
  forall l2, remains PB s l2 -> l1 = l2.
Proof.
  intros S PB s l1 H. induction H as [s s' E|s s1 s2 c l E Hc Ea H IH]; intros l2 H2.
  - inversion H2; [reflexivity|congruence].
  - inversion H2 as [t t' E'|t t1 t2 c' l' E' Hc' Ea' H']; subst; [congruence|].
    rewrite E in E'. injection E' as <- <-. rewrite Ea in Ea'. injection Ea' as <-.
    now rewrite (IH _ H').
Qed.

(** A buffer meeting the contract gives back the bytes it stands for. *)
Lemma rep_remains : forall S (PB : parsebuf S) mo cap m rep,
  contract PB mo eof_error cap m rep -> forall l s a, rep s l a -> remains PB s l.
Proof.
  intros S PB mo cap m rep HC l. 
  induction l as [l IH] using (well_founded_induction (Wf_nat.well_founded_ltof _ (@length N))).
  intros s a Hr. destruct l as [|b t].
  - destruct (ct_empty HC _ _ Hr) as (s' & E & _). now apply rem_end with (s' := s').
  - destruct (ct_chunk HC _ _ _ Hr ltac:(discriminate)) as (c & s1 & E & _ & Hc & (r & El) & _ & Ha).
    destruct (Ha (len (chunk_data c)) ltac:(lia)) as (s2 & Ea & Hr2).
    rewrite El in Hr2. rewrite drop_app_exact in Hr2 by reflexivity.
    rewrite El. eapply rem_more; [exact E|exact Hc|exact Ea|].
    apply IH with (a := a + len (chunk_data c)); [|assumption].
    unfold Wf_nat.ltof. rewrite El, app_length. destruct (chunk_data c); [congruence|cbn; lia].
Qed.

(** * Slices *)

Lemma slice_calls : forall cs s,
  match calls slice_buf cs s with
  | Some s' => advanced cs <= len (sl_data s) /\
      s' = mkSlice (sl_addr s + advanced cs) (drop (advanced cs) (sl_data s))
  | None => len (sl_data s) < advanced cs
  end.
Proof.
  induction cs as [|c cs IH]; intros s.
  - cbn [calls advanced]. split; [lia|]. rewrite N.add_0_r, drop_0. destruct s; reflexivity.
  - cbn [calls]. destruct c as [|n]; cbn [do_call advanced].
    + replace (match pb_chunk slice_buf s with (Ok _, s') | (Err _, s') => Some s' | _ => None end)
        with (Some s); [apply IH|].
      cbn. unfold slice_chunk. destruct (sl_data s); reflexivity.
    + cbn [pb_advance slice_buf]. unfold slice_advance.
      destruct (N.ltb_spec (len (sl_data s)) n) as [Hlt|Hge]; [lia|].
      specialize (IH (mkSlice (sl_addr s + n) (drop n (sl_data s)))). cbn [sl_addr sl_data] in IH.
      destruct (calls slice_buf cs _) as [s'|].
      * destruct IH as [Hle ->]. rewrite len_drop in Hle. split; [lia|].
        rewrite drop_drop. f_equal; lia.
      * rewrite len_drop in IH. lia.
Qed.

(** * Record cursors *)

(** A cursor over the chunks [cs] at offset [cu_offset] of the first. *)
Definition cursor_on (cs : list (cow N)) (c : cursor) : Prop :=
  cu_chunks c = rev cs /\ Forall (fun d => cow_list d <> []) cs /\
  match cs with [] => cu_offset c = 0 | d :: _ => cu_offset c < len (cow_list d) end.

Definition cursor_left (cs : list (cow N)) (c : cursor) : list N :=
  drop (cu_offset c) (concat (map cow_list cs)).

Lemma pop_spec : forall cs off fuel, (length cs <= fuel)%nat ->
  Forall (fun d => cow_list d <> []) cs ->
  exists cs' off', cursor_pop fuel (rev cs) off = (rev cs', off') /\
    Forall (fun d => cow_list d <> []) cs' /\
    if off <=? len (concat (map cow_list cs))
    then drop off' (concat (map cow_list cs')) = drop off (concat (map cow_list cs)) /\
         match cs' with [] => off' = 0 | d :: _ => off' < len (cow_list d) end
    else cs' = [] /\ off' <> 0.
Proof.
  induction cs as [|d cs IH]; intros off fuel Hf Hne.
  - exists [], off. cbn [rev]. split; [destruct fuel; reflexivity|]. split; [constructor|].
    cbn [map concat]. destruct (N.leb_spec off (len (@nil N))) as [H|H]; rewrite len_nil in H.
    + split; [reflexivity|lia].
    + split; [reflexivity|lia].
  - destruct fuel as [|fuel]; [cbn in Hf; lia|]. cbn [cursor_pop]. rewrite split_last_rev_cons.
    apply Forall_cons_iff in Hne as [Hd Hne]. cbn [map concat]. rewrite len_app.
    destruct (N.ltb_spec off (len (cow_list d))) as [Hlt|Hge].
    + exists (d :: cs), off. split; [reflexivity|]. split; [now constructor|].
      replace (off <=? _) with true by (symmetry; apply N.leb_le; lia). split; [reflexivity|lia].
    + destruct (IH (off - len (cow_list d)) fuel ltac:(cbn in Hf; lia) Hne) as (cs' & off' & E & Hne' & H).
      exists cs', off'. split; [exact E|]. split; [exact Hne'|].
      destruct (N.leb_spec (off - len (cow_list d)) (len (concat (map cow_list cs)))) as [Hle|Hgt].
      * replace (off <=? _) with true by (symmetry; apply N.leb_le; lia).
        destruct H as [H1 H2]. split; [|exact H2]. rewrite H1.
        rewrite drop_app. rewrite (drop_all off (cow_list d)) by lia. reflexivity.
      * replace (off <=? _) with false by (symmetry; apply N.leb_gt; lia). exact H.
Qed.

Lemma cursor_advance_spec : forall cs c n, cursor_on cs c -> len (cursor_left cs c) <= cu_len c ->
  if n <=? len (cursor_left cs c)
  then exists cs' c', cursor_advance c n = (Ok tt, c') /\ cursor_on cs' c' /\ cu_len c' = cu_len c /\
         cursor_left cs' c' = drop n (cursor_left cs c)
  else exists c', cursor_advance c n = (Panic, c').
Proof.
  intros cs c n (Hc & Hne & Ho) Hlen. unfold cursor_advance. cbn [cu_chunks cu_offset cu_len].
  assert (Hlo : cu_offset c <= len (concat (map cow_list cs))).
  { destruct cs as [|d cs']; [lia|]. cbn [map concat]. rewrite len_app. lia. }
  assert (Hll : len (cursor_left cs c) = len (concat (map cow_list cs)) - cu_offset c)
    by (unfold cursor_left; apply len_drop).
  destruct (N.ltb_spec (cu_len c) n) as [Hgt|Hle].
  - replace (n <=? _) with false by (symmetry; apply N.leb_gt; lia). eexists; reflexivity.
  - assert (Slow :
      if n <=? len (cursor_left cs c)
      then exists cs' c', cursor_advance_slow (mkCursor (cu_chunks c) (cu_offset c + n) (cu_len c)) = (Ok tt, c') /\
         cursor_on cs' c' /\ cu_len c' = cu_len c /\ cursor_left cs' c' = drop n (cursor_left cs c)
      else exists c', cursor_advance_slow (mkCursor (cu_chunks c) (cu_offset c + n) (cu_len c)) = (Panic, c')).
    { unfold cursor_advance_slow. cbn [cu_chunks cu_offset cu_len]. rewrite Hc.
      destruct (pop_spec cs (cu_offset c + n) (length (rev cs)) ltac:(rewrite rev_length; lia) Hne)
        as (cs' & off' & E & Hne' & H). rewrite E.
      destruct (N.leb_spec n (len (cursor_left cs c))) as [Hn|Hn].
      - replace (cu_offset c + n <=? _) with true in H by (symmetry; apply N.leb_le; lia).
        destruct H as [H1 H2]. exists cs', (mkCursor (rev cs') off' (cu_len c)).
        split.
        { destruct (rev cs') eqn:Er; [|reflexivity].
          assert (cs' = []) as -> by (rewrite <- (rev_involutive cs'), Er; reflexivity).
          subst off'. reflexivity. }
        split; [repeat split; assumption|]. split; [reflexivity|].
        unfold cursor_left. cbn [cu_offset]. rewrite H1, drop_drop. f_equal; lia.
      - replace (cu_offset c + n <=? _) with false in H by (symmetry; apply N.leb_gt; lia).
        destruct H as [-> H]. cbn [rev]. replace (off' =? 0) with false by (symmetry; now apply N.eqb_neq).
        eexists; reflexivity. }
    rewrite Hc. rewrite Hc in Slow. destruct cs as [|d cs]; [exact Slow|]. rewrite split_last_rev_cons.
    destruct (N.ltb_spec (cu_offset c + n) (len (cow_list d))) as [Hlt|Hge]; [|exact Slow].
    cbn [map concat] in Hll. rewrite len_app in Hll.
    replace (n <=? _) with true by (symmetry; apply N.leb_le; lia).
    exists (d :: cs), (mkCursor (rev (d :: cs)) (cu_offset c + n) (cu_len c)).
    split; [reflexivity|]. split; [repeat split; assumption|]. split; [reflexivity|].
    unfold cursor_left. cbn [cu_offset]. rewrite drop_drop. f_equal; lia.
Qed.

Lemma cursor_chunk_same : forall cs c, cursor_on cs c -> do_call cursor_buf CChunk c = Some c.
Proof.
  intros cs c (Hc & Hne & Ho). cbn. unfold cursor_chunk. rewrite Hc.
  destruct cs as [|d cs]; [reflexivity|]. rewrite split_last_rev_cons.
  replace (len (cow_list d) <? cu_offset c) with false by (symmetry; apply N.ltb_ge; lia).
  destruct d; reflexivity.
Qed.

Lemma cursor_calls : forall cl cs c, cursor_on cs c -> len (cursor_left cs c) <= cu_len c ->
  match calls cursor_buf cl c with
  | Some c' => advanced cl <= len (cursor_left cs c) /\ cu_len c' = cu_len c /\
      exists cs', cursor_on cs' c' /\ cursor_left cs' c' = drop (advanced cl) (cursor_left cs c)
  | None => len (cursor_left cs c) < advanced cl
  end.
Proof.
  induction cl as [|x cl IH]; intros cs c Ho Hl.
  - cbn [calls advanced]. split; [lia|]. split; [reflexivity|]. exists cs. split; [exact Ho|]. now rewrite drop_0.
  - cbn [calls]. destruct x as [|n]; cbn [advanced].
    + rewrite (cursor_chunk_same cs c Ho). now apply IH.
    + cbn [do_call]. cbn [pb_advance cursor_buf].
      pose proof (cursor_advance_spec cs c n Ho Hl) as H.
      destruct (N.leb_spec n (len (cursor_left cs c))) as [Hn|Hn].
      * destruct H as (cs' & c' & E & Ho' & Hcl & El). rewrite E.
        specialize (IH cs' c' Ho'). rewrite El, len_drop, Hcl in IH. specialize (IH ltac:(lia)).
        destruct (calls cursor_buf cl c') as [c2|].
        -- destruct IH as (H1 & H2 & cs2 & H3 & H4). split; [lia|]. split; [congruence|].
           exists cs2. split; [exact H3|]. rewrite H4, drop_drop. f_equal; lia.
        -- lia.
      * destruct H as (c' & E). rewrite E. lia.
Qed.

Lemma cursor_remains : forall cs c, cursor_on cs c -> len (cursor_left cs c) <= cu_len c ->
  remains cursor_buf c (cursor_left cs c).
Proof.
  intros cs. induction cs as [|d cs IH]; intros c Hon Hl.
  - destruct Hon as (Hc & Hne & Ho). unfold cursor_left. cbn [map concat].
    replace (drop (cu_offset c) (@nil N)) with (@nil N) by (now rewrite Ho).
    apply rem_end with (s' := c). cbn. unfold cursor_chunk. now rewrite Hc.
  - destruct Hon as (Hc & Hne & Ho). apply Forall_cons_iff in Hne as [Hd Hne].
    set (ch := match d with
               | Borrowed x dl => External (x + cu_offset c) (drop (cu_offset c) dl)
               | Owned dl => Temporary (drop (cu_offset c) dl) end).
    assert (Hch : chunk_data ch = drop (cu_offset c) (cow_list d)) by (destruct d; reflexivity).
    assert (El : cursor_left (d :: cs) c = chunk_data ch ++ concat (map cow_list cs)).
    { unfold cursor_left. cbn [map concat]. rewrite drop_app_le by lia. now rewrite Hch. }
    pose proof (cursor_advance_spec (d :: cs) c (len (chunk_data ch))
      ltac:(repeat split; [exact Hc|now constructor|exact Ho]) Hl) as H.
    rewrite El in Hl. rewrite len_app in Hl.
    assert (Ea : exists c', cursor_advance c (len (chunk_data ch)) = (Ok tt, c') /\
       cursor_on cs c' /\ cu_len c' = cu_len c /\ cu_offset c' = 0).
    { clear H. unfold cursor_advance. replace (cu_len c <? _) with false by (symmetry; apply N.ltb_ge; lia).
      cbn [cu_chunks cu_offset]. rewrite Hc, split_last_rev_cons. rewrite Hch, len_drop in *.
      replace (cu_offset c + _ <? _) with false by (symmetry; apply N.ltb_ge; lia).
      unfold cursor_advance_slow. cbn [cu_chunks cu_offset cu_len].
      replace (length (rev (d :: cs))) with (Datatypes.S (length (rev cs)))
        by (rewrite !rev_length; reflexivity).
      cbn [cursor_pop]. rewrite split_last_rev_cons.
      replace (cu_offset c + _ <? _) with false by (symmetry; apply N.ltb_ge; lia).
      replace (cu_offset c + (len (cow_list d) - cu_offset c) - len (cow_list d)) with 0 by lia.
      assert (Epop : cursor_pop (length (rev cs)) (rev cs) 0 = (rev cs, 0)).
      { destruct cs as [|d' cs']; [reflexivity|].
        replace (length (rev (d' :: cs'))) with (Datatypes.S (length (rev cs')))
          by (rewrite !rev_length; reflexivity).
        cbn [cursor_pop]. rewrite split_last_rev_cons.
        replace (0 <? len (cow_list d')) with true; [reflexivity|].
        symmetry; apply N.ltb_lt, len_pos. now apply Forall_cons_iff in Hne. }
      rewrite Epop. exists (mkCursor (rev cs) 0 (cu_len c)). split; [destruct (rev cs); reflexivity|].
      split; [|split; reflexivity]. split; [reflexivity|]. split; [exact Hne|]. cbn [cu_offset].
      destruct cs as [|d' cs']; [reflexivity|]. apply len_pos. now apply Forall_cons_iff in Hne. }
    destruct Ea as (c' & Ea & Hon' & Hcl & Hoff).
    rewrite El. apply rem_more with (s1 := c) (s2 := c').
    + cbn. unfold cursor_chunk. rewrite Hc, split_last_rev_cons.
      replace (len (cow_list d) <? cu_offset c) with false by (symmetry; apply N.ltb_ge; lia).
      subst ch. destruct d; reflexivity.
    + rewrite Hch. intros E. apply drop_eq_nil in E. lia.
    + exact Ea.
    + assert (Ec : cursor_left cs c' = concat (map cow_list cs))
        by (unfold cursor_left; now rewrite Hoff, drop_0).
      rewrite <- Ec. apply IH; [exact Hon'|]. rewrite Ec. lia.
Qed.

Lemma cursor_rep_on : forall mo cap m c l a, cursor_rep mo cap m c l a ->
  exists cs, cursor_on cs c /\ l = cursor_left cs c.
Proof.
  intros mo cap m c l a (start & cs & H1 & H2 & H3 & H4 & H5 & H6 & H7).
  exists cs. split; [|exact H5]. split; [exact H1|]. split; [|exact H4].
  clear - H3. revert start H3. induction cs as [|d cs IH]; intros start H3; constructor.
  - cbn in H3. tauto.
  - cbn in H3. eapply IH. apply H3.
Qed.
