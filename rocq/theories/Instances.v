(** The buffers of the crate meet the contract. *)
From Coq Require Import NArith List Bool Lia.
From Verif Require Import Base BaseFacts Types Buf Contract Refine.
Import ListNotations.
Open Scope N_scope.

Lemma mod_shift : forall x a o, x mod 8 = a mod 8 -> (x + o) mod 8 = (a + o) mod 8.
Proof. intros x a o H. rewrite (N.add_mod x), (N.add_mod a), H by lia. reflexivity. Qed.

(** * [&[u8]] *)

Definition slice_rep (cap : N) (m : memory) (s : slice) (l : list N) (a : N) : Prop :=
  sl_data s = l /\ sl_addr s mod 8 = a mod 8 /\ mem_at m (sl_addr s) l /\ len l <= cap.

Lemma slice_contract : forall cap m,
  contract slice_buf Whole eof_error cap m (slice_rep cap m).
Proof.
  intros cap m; constructor.
  - intros s a (H1 & H2 & H3 & H4); cbn. unfold slice_chunk; rewrite H1.
    exists s; repeat split; assumption.
  - intros [x d] l a (H1 & H2 & H3 & H4) Hl; cbn [sl_data sl_addr] in *; subst d.
    cbn. unfold slice_chunk; cbn. destruct l as [|b l]; [congruence|].
    exists (External x (b :: l)), (mkSlice x (b :: l)). cbn [chunk_data].
    split; [reflexivity|]. split; [repeat split; assumption|].
    split; [discriminate|]. split; [exists []; now rewrite app_nil_r|].
    split; [repeat split; assumption|].
    intros n Hn. unfold slice_advance; cbn [sl_data sl_addr].
    replace (len (b :: l) <? n) with false by (symmetry; apply N.ltb_ge; assumption).
    eexists; split; [reflexivity|].
    split; [reflexivity|]. split; [now apply mod_shift|]. split; [now apply mem_at_drop|].
    rewrite len_drop; lia.
  - intros s l a h (H1 & H2 & H3 & H4) Hh; cbn in Hh. injection Hh as <-. now rewrite H1.
  - discriminate.
Qed.

(** * [BufReader] *)

Definition reader_fin (e : option (N * bool)) : perror :=
  match e with None => eof_error | Some (code, ue) => io_error code ue end.

(** A reader must not return an empty read before its end. *)
Definition reader_rep (e : option (N * bool)) (s : bufreader) (l : list N) (a : N) : Prop :=
  br_end s = e /\ Forall (fun r => r <> []) (br_reads s) /\
  l = br_buf s ++ concat (br_reads s).

Lemma reader_contract : forall e cap m, 16384 <= cap ->
  contract bufreader_buf NoExt (reader_fin e) cap m (reader_rep e).
Proof.
  intros e cap m Hcap; constructor.
  - intros [b rs e'] a (H1 & H2 & H3); cbn in *; subst e'.
    symmetry in H3; apply app_eq_nil in H3 as [-> H3].
    destruct rs as [|r rs].
    + unfold br_chunk, br_fill; cbn. exists (mkReader [] [] e).
      destruct e as [[code ue]|]; cbn; repeat split; constructor.
    + inversion H2; subst. cbn in H3; apply app_eq_nil in H3 as [-> _]; congruence.
  - intros [b rs e'] l a (H1 & H2 & H3) Hl; cbn in *; subst e'.
    assert (G : exists d s', br_fill (mkReader b rs e) = (Ok d, s') /\ d <> [] /\
                 br_buf s' = d /\ reader_rep e s' l a).
    { unfold br_fill; cbn. destruct b as [|x b].
      - destruct rs as [|r rs]; [cbn in H3; congruence|]. inversion H2; subst.
        exists r; eexists; repeat split; auto.
      - exists (x :: b); eexists; repeat split; auto; discriminate. }
    destruct G as (d & s' & E & Hd & Hb & Hr). subst d.
    exists (Temporary (br_buf s')), s'. unfold br_chunk; rewrite E.
    split; [destruct (br_buf s'); [congruence|reflexivity]|].
    split; [assumption|]. split; [assumption|].
    destruct Hr as (G1 & G2 & G3). cbn [chunk_data].
    split; [eexists; exact G3|]. split; [discriminate|].
    intros n Hn. unfold br_advance. eexists; split; [reflexivity|].
    split; [assumption|]. split; [assumption|]. cbn.
    now rewrite G3, drop_app_le.
  - intros s l a h _ Hh; discriminate.
  - intros; exact Hcap.
Qed.

(** * [ParseBufCursor] *)

(** Chunks in the order they are delivered, the first of which starts at [a]. *)
Fixpoint chunks_ok (mo : mode) (m : memory) (cs : list (cow N)) (a : N) : Prop :=
  match cs with
  | [] => True
  | c :: t =>
      cow_list c <> [] /\
      match c with
      | Owned _ => mo <> Whole
      | Borrowed x d =>
          mem_at m x d /\
          match mo with
          | NoExt => False
          | Whole => x mod 8 = a mod 8 /\ t = []
          | Coh => x mod 8 = a mod 8
          | AnyExt => True
          end
      end /\
      chunks_ok mo m t (a + len (cow_list c))
  end.

Definition cursor_rep (mo : mode) (cap : N) (m : memory) (c : cursor) (l : list N) (a : N)
  : Prop :=
  exists start cs,
    cu_chunks c = rev cs /\ a = start + cu_offset c /\ chunks_ok mo m cs start /\
    match cs with [] => cu_offset c = 0 | d :: _ => cu_offset c < len (cow_list d) end /\
    l = drop (cu_offset c) (concat (map cow_list cs)) /\
    len l <= cu_len c /\ cu_len c <= cap.

Lemma concat_nonempty : forall mo m cs a, chunks_ok mo m cs a ->
  concat (map cow_list cs) = [] -> cs = [].
Proof.
  intros mo m [|c t] a H E; [reflexivity|]. cbn in H, E.
  apply app_eq_nil in E as [E _]. tauto.
Qed.

Lemma cursor_contract : forall mo cap m,
  contract cursor_buf mo eof_error cap m (cursor_rep mo cap m).
Proof.
  intros mo cap m; constructor.
  - intros c a H. exists c; split; [|assumption].
    destruct H as (start & cs & H1 & H2 & H3 & H4 & H5 & H6 & H7).
    cbn; unfold cursor_chunk. rewrite H1.
    destruct cs as [|d cs]; [reflexivity|].
    symmetry in H5; apply drop_eq_nil in H5. cbn [map concat] in H5.
    rewrite len_app in H5. lia.
  - intros c l a (start & cs & H1 & H2 & H3 & H4 & H5 & H6 & H7) Hl.
    destruct cs as [|d cs]; [cbn in H5; congruence|].
    cbn [map concat] in H5. rewrite drop_app_le in H5 by lia.
    destruct H3 as (Hne & Hd & Hcs).
    set (ch := match d with
               | Borrowed x dl => External (x + cu_offset c) (drop (cu_offset c) dl)
               | Owned dl => Temporary (drop (cu_offset c) dl) end).
    assert (Hch : chunk_data ch = drop (cu_offset c) (cow_list d)) by (destruct d; reflexivity).
    exists ch, c.
    assert (E : cursor_chunk c = (Ok ch, c)).
    { unfold cursor_chunk. rewrite H1, split_last_rev_cons.
      replace (len (cow_list d) <? cu_offset c) with false by (symmetry; apply N.ltb_ge; lia).
      destruct d; reflexivity. }
    split; [exact E|].
    split.
    { exists start, (d :: cs). repeat split; try assumption.
      cbn [map concat]; rewrite drop_app_le by lia; assumption. }
    split. { rewrite Hch. apply len_pos_inv; rewrite len_drop; lia. }
    split. { rewrite Hch. eexists; exact H5. }
    split.
    { destruct d as [x dl|dl]; cbn [ch chunk_ok].
      - destruct Hd as [Hm Hd]. split; [now apply mem_at_drop|].
        destruct mo; try assumption.
        + destruct Hd as [Hx ->]. split; [subst a; now apply mod_shift|].
          cbn in H5; now rewrite app_nil_r in H5.
        + subst a; now apply mod_shift.
      - exact Hd. }
    intros n Hn. rewrite Hch, len_drop in Hn. cbn [pb_advance cursor_buf].
    unfold cursor_advance; cbn [cu_chunks cu_offset cu_len].
    assert (Hln : n <= len l) by (rewrite H5, len_app, len_drop; lia).
    replace (cu_len c <? n) with false by (symmetry; apply N.ltb_ge; lia).
    rewrite H1, split_last_rev_cons.
    destruct (N.ltb_spec (cu_offset c + n) (len (cow_list d))) as [Hlt|Hge].
    + eexists; split; [reflexivity|].
      exists start, (d :: cs); cbn [cu_chunks cu_offset cu_len].
      split; [reflexivity|]. split; [lia|]. split; [repeat split; assumption|].
      split; [assumption|]. split; [|split; [rewrite len_drop; lia|assumption]].
      cbn [map concat]. rewrite H5, drop_app_le, drop_app_le, drop_drop by (rewrite ?len_drop; lia).
      reflexivity.
    + assert (En : cu_offset c + n = len (cow_list d)) by lia.
      unfold cursor_advance_slow; cbn [cu_chunks cu_offset cu_len].
      replace (length (rev (d :: cs))) with (Datatypes.S (length (rev cs)))
        by (rewrite !rev_length; reflexivity).
      cbn [cursor_pop]. rewrite split_last_rev_cons.
      replace (cu_offset c + n <? len (cow_list d)) with false by (symmetry; apply N.ltb_ge; lia).
      replace (cu_offset c + n - len (cow_list d)) with 0 by lia.
      assert (Epop : cursor_pop (length (rev cs)) (rev cs) 0 = (rev cs, 0)).
      { destruct cs as [|d' cs']; [reflexivity|].
        replace (length (rev (d' :: cs'))) with (Datatypes.S (length (rev cs')))
          by (rewrite !rev_length; reflexivity).
        cbn [cursor_pop]. rewrite split_last_rev_cons.
        replace (0 <? len (cow_list d')) with true; [reflexivity|].
        symmetry; apply N.ltb_lt, len_pos. cbn in Hcs; tauto. }
      rewrite Epop.
      exists (mkCursor (rev cs) 0 (cu_len c)). split.
      { destruct (rev cs); reflexivity. }
      exists (start + len (cow_list d)), cs; cbn [cu_chunks cu_offset cu_len].
      split; [reflexivity|]. split; [lia|]. split; [assumption|].
      split. { destruct cs as [|d' cs']; [reflexivity|]. apply len_pos; cbn in Hcs; tauto. }
      split; [|split; [rewrite len_drop; lia|assumption]].
      rewrite drop_0, H5. rewrite drop_app, (drop_all n), len_drop by (rewrite len_drop; lia).
      replace (n - (len (cow_list d) - cu_offset c)) with 0 by lia.
      now rewrite drop_0.
  - intros c l a h (start & cs & H1 & H2 & H3 & H4 & H5 & H6 & H7) Hh.
    cbn in Hh; injection Hh as <-; assumption.
  - discriminate.
Qed.

(** * A list of chunks *)

Fixpoint list_ok (mo : mode) (m : memory) (cs : list chunk) (a : N) : Prop :=
  match cs with
  | [] => True
  | c :: t =>
      chunk_data c <> [] /\
      match c with
      | Temporary _ => mo <> Whole
      | External x d =>
          mem_at m x d /\
          match mo with
          | NoExt => False
          | Whole => x mod 8 = a mod 8 /\ t = []
          | Coh => x mod 8 = a mod 8
          | AnyExt => True
          end
      end /\
      list_ok mo m t (a + len (chunk_data c))
  end.

Definition chunklist_rep (mo : mode) (m : memory) (s : list chunk) (l : list N) (a : N) : Prop :=
  list_ok mo m s a /\ l = concat (map chunk_data s).

Lemma chunk_drop_data : forall n c, chunk_data (chunk_drop n c) = drop n (chunk_data c).
Proof. intros n []; reflexivity. Qed.

Lemma chunklist_contract : forall mo cap m, 16384 <= cap ->
  contract chunklist_buf mo eof_error cap m (chunklist_rep mo m).
Proof.
  intros mo cap m Hcap; constructor.
  - intros s a [H1 H2]. exists s; split; [|split; assumption].
    destruct s as [|c t]; [reflexivity|]. cbn in H1, H2.
    symmetry in H2; apply app_eq_nil in H2 as [H2 _]; tauto.
  - intros s l a [H1 H2] Hl. destruct s as [|c t]; [cbn in H2; congruence|].
    exists c, (c :: t). split; [reflexivity|]. split; [split; assumption|].
    cbn in H1, H2. destruct H1 as (Hne & Hc & Ht).
    split; [assumption|]. split; [eexists; exact H2|]. split.
    { destruct c as [d|x d]; cbn; [assumption|].
      destruct Hc as [Hm Hc]; split; [assumption|].
      destruct mo; try assumption. destruct Hc as [Hx ->].
      split; [assumption|]. cbn in H2; now rewrite app_nil_r in H2. }
    intros n Hn. exists (chunklist_drop n (c :: t)). split; [reflexivity|].
    assert (E : l = chunk_data c ++ concat (map chunk_data t)) by exact H2.
    cbn [chunklist_drop].
    destruct (N.ltb_spec n (len (chunk_data c))) as [Hlt|Hge].
    + split.
      * cbn [list_ok]. rewrite chunk_drop_data, len_drop.
        split. { apply len_pos_inv; rewrite len_drop; lia. }
        split.
        { destruct c as [d|x d]; cbn [chunk_drop]; [assumption|].
          destruct Hc as [Hm Hc]; split; [now apply mem_at_drop|].
          destruct mo; try assumption.
          - destruct Hc as [Hx ->]; split; [now apply mod_shift|reflexivity].
          - now apply mod_shift. }
        replace (a + n + (len (chunk_data c) - n)) with (a + len (chunk_data c)) by lia.
        assumption.
      * cbn [map concat]. rewrite chunk_drop_data, E. now rewrite drop_app_le by lia.
    + replace (n - len (chunk_data c)) with 0 by lia. replace n with (len (chunk_data c)) by lia.
      assert (Ed : chunklist_drop 0 t = t).
      { destruct t as [|c' t']; [reflexivity|]. cbn [chunklist_drop].
        cbn in Ht. destruct Ht as (Hne' & _).
        replace (0 <? len (chunk_data c')) with true
          by (symmetry; apply N.ltb_lt, len_pos; assumption).
        f_equal. destruct c'; cbn; now rewrite ?drop_0, ?N.add_0_r. }
      rewrite Ed. split; [assumption|].
      rewrite E. now rewrite drop_app_exact by reflexivity.
  - intros s l a h _ Hh; discriminate.
  - intros; exact Hcap.
Qed.
