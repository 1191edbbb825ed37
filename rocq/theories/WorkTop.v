(** The calls and reservations of whole records and attributes. *)
From Coq Require Import NArith List Bool Lia.
From Verif Require Import Base BaseFacts Types Platform Config Buf Parser Contract Refine.
From Verif Require Import Instances Prims Records Sample Record Attr RefFrame Safe NoHint ClientFacts Work.
Import ListNotations.
Open Scope N_scope.

Lemma W_bind_safe : forall S (rep : S -> list N -> N -> Prop) calls fin cap A B (Q : A -> Prop)
    rate b1 e1 k1 b2 e2 k2 (m : M S A) (K : A -> M S B),
  W rep calls rate b1 e1 k1 m -> (forall a0, Safe.Safe fin cap rep a0 Q m) ->
  (forall x, Q x -> W rep calls rate b2 e2 k2 (K x)) ->
  W rep calls rate (b1 + b2) (N.max e1 (b1 + e2)) (k1 + k2) (bind m K).
Proof.
  intros S rep calls fin cap A B Q rate b1 e1 k1 b2 e2 k2 m K Hm Hs HK p l a Hr Hw. unfold bind.
  destruct (Hm p l a Hr Hw) as (r & p1 & n1 & c1 & E & Hn & Ho & Hc & Hl & Hres). rewrite E.
  destruct r as [x|e'| |].
  - destruct Hres as [Hr1 Hc1]. cbv beta in Hc1.
    destruct (Hs a p l 0) as (r' & p2 & l2 & pos2 & E2 & Hg & _); [rewrite N.add_0_r; exact Hr|exact Hw|].
    rewrite E in E2. injection E2 as <- <-. cbn [good] in Hg.
    assert (Hw1 : wf (drop n1 l)) by (apply wf_drop, Hw).
    destruct (HK x Hg p1 _ _ Hr1 Hw1) as (r & p3 & n2 & c2 & E3 & Hn2 & Ho2 & Hc2 & Hl2 & Hres2).
    rewrite len_drop in Hn2. exists r, p3, (n1 + n2), (c1 + c2). split; [exact E3|].
    split; [lia|]. split; [lia|]. split; [lia|]. split; [lia|].
    destruct r; try lia. destruct Hres2 as [Hr2 Hp2]. rewrite drop_drop in Hr2.
    rewrite N.add_assoc. split; [|cbv beta in *; lia].
    rewrite N.add_comm in Hr2 at 1. first [exact Hr2|rewrite N.add_comm; exact Hr2].
  - exists (Err e'), p1, n1, c1. split; [reflexivity|]. do 4 (split; [lia|]). lia.
  - exists Panic, p1, n1, c1. split; [reflexivity|]. do 4 (split; [lia|]). lia.
  - exists Fuel, p1, n1, c1. split; [reflexivity|]. do 4 (split; [lia|]). lia.
Qed.

Lemma zero_counts : forall T (PT : parsebuf T), counts PT (fun _ => 0).
Proof. intros T PT. split; intros; cbn; lia. Qed.

Section Top.
Context (pl : platform) {S : Type} (PB : parsebuf S) (mo : mode) (fin : perror) (cap : N)
  (mem : memory) (rep : S -> list N -> N -> Prop) (calls : S -> N).
Context (HC : contract PB mo fin cap mem rep) (Hcalls : counts PB calls).
Context (H16 : 65527 <= cap) (Hcap : cap <= isize_max pl).

Lemma W_metadata_with_header : forall h, h_size h <= cap + 8 ->
  W rep calls 2 0 1 0 (parse_metadata_with_header pl PB h).
Proof.
  intros h Hh. unfold parse_metadata_with_header.
  destruct (checked_sub (h_size h) 8) as [n|] eqn:En; [|eapply W_mono; [apply W_fail|apply N.le_refl|lia..]].
  assert (Hn : n <= cap).
  { unfold checked_sub in En. destruct (8 <=? h_size h); [|discriminate]. injection En as <-. lia. }
  eapply W_mono; [eapply W_bind_safe with (b1 := 0) (b2 := 0) (e1 := 1) (e2 := 0) (k1 := 0) (k2 := 0)|..].
  - apply (W_split PB mo fin cap mem rep calls HC Hcalls).
  - intros a0. apply (s_split' mo cap mem); [exact HC|exact Hn].
  - intros q [Hq Hql]. destruct (_ || _); [apply W_ret|].
    destruct (checked_sub n (estimate_len (p_cfg q))) as [k|] eqn:Ek; [|apply W_fail].
    apply W_map. apply W_sub; [exact (ret (q, sample_id_default))|].
    destruct Hq as (Hlog & n' & d & a & Hn' & Hoff & Hrep & Hwd).
    assert (HW : W (cursor_rep mo n' mem) (fun _ => 0) 4 0 2 0
      (p <- split_at cursor_buf k ;; si <- parse_sample_id pl cursor_buf ;; ret (p, si))).
    { eapply W_mono; [eapply W_bind; [eapply W_split4; [apply cursor_contract|apply zero_counts]|]|..].
      - intros p. apply W_map. eapply W_sample_id; [apply cursor_contract|apply zero_counts].
      - lia. - lia. - lia. - lia. }
    destruct (HW q d a Hrep Hwd) as (r & p' & n2 & c2 & E & _ & _ & _ & Hl & _).
    rewrite E. cbn [snd]. rewrite Hlog in Hl. exact Hl.
  - lia. - lia. - lia. - lia.
Qed.

Lemma W_collect_with_header : forall h, h_size h <= cap + 8 ->
  W rep calls 2 0 1 8 (collect_with_header pl PB h).
Proof.
  intros h Hh. unfold collect_with_header.
  eapply W_mono; [eapply W_bind_safe with (b1 := 0) (b2 := 0) (e1 := 1) (e2 := 0) (k1 := 0) (k2 := 8)|..].
  - apply W_metadata_with_header, Hh.
  - intros a0. apply (s_metadata_with_header pl PB mo fin cap mem rep a0 HC Hcap); exact Hh.
  - intros [q md] (Hq & _ & _). cbn [fst snd] in *.
    destruct Hq as (Hlog & n & d & a & Hn & Hoff & Hrep & Hwd).
    destruct (cursor_as_slice (p_buf q)) as [[x dd]|] eqn:Esl.
    + apply W_map. apply W_sub; [exact (lift Panic)|].
      unfold cursor_as_slice in Esl.
      destruct Hrep as (start & cs & H1 & H2 & H3 & H4 & H5 & H6 & H7).
      assert (Ecs : cs = [Borrowed x dd]).
      { rewrite <- (rev_involutive cs), <- H1.
        destruct (cu_chunks (p_buf q)) as [|[a' d'|] [|]]; try discriminate.
        injection Esl as -> ->. reflexivity. }
      subst cs. cbn [chunks_ok map concat cow_list] in *. rewrite Hoff in *.
      rewrite drop_0, app_nil_r in H5. destruct H3 as (Hne & (Hm & Hmo) & _).
      set (p0 := new_parser (mkSlice x dd) (with_misc (p_cfg q) (md_misc md))).
      assert (Hr0 : slice_rep n mem (p_buf p0) d x).
      { unfold p0. cbn [p_buf new_parser]. split; [cbn; congruence|]. split; [reflexivity|].
        rewrite H5 at 1. split; [exact Hm|]. lia. }
      destruct (W_body pl slice_buf Whole eof_error n mem _ _ (slice_contract n mem) (zero_counts _ _)
        (md_ty md) p0 d x Hr0 Hwd) as (r & p' & n2 & c2 & E & _ & _ & _ & Hl & _).
      rewrite E. exact Hl.
    + apply W_map. apply W_sub; [exact (lift Panic)|].
      destruct (W_body pl cursor_buf mo eof_error n mem _ _ (cursor_contract mo n mem) (zero_counts _ _)
        (md_ty md) (new_parser (p_buf q) (with_misc (p_cfg q) (md_misc md))) d a Hrep Hwd)
        as (r & p' & n2 & c2 & E & _ & _ & _ & Hl & _).
      rewrite E. exact Hl.
  - lia. - lia. - lia. - lia.
Qed.

Lemma W_collect : W rep calls 2 3 4 8 (collect pl PB).
Proof.
  unfold collect.
  eapply W_mono; [eapply W_bind_safe with (b1 := 3) (b2 := 0) (e1 := 4) (e2 := 1) (k1 := 0) (k2 := 8)|..].
  - apply (W_header_two pl PB mo fin cap mem rep calls HC Hcalls).
  - intros a0. apply (s_header pl PB mo fin cap mem rep a0 HC).
  - intros h Hh. apply W_collect_with_header. cbv beta in Hh. lia.
  - lia. - lia. - lia. - lia.
Qed.

Lemma W_record : forall O (V : visitor O), W rep calls 2 3 4 8 (parse_record pl PB V).
Proof.
  intros O V p l a Hr Hw. rewrite record_eq. revert p l a Hr Hw.
  change (W rep calls 2 3 4 8 (r <- collect pl PB ;; lift (deliver V (fst r) (snd r)))).
  eapply W_mono; [eapply W_bind; [apply W_collect|intros; apply W_lift]|lia..].
Qed.

Lemma W_record_with_header : forall O (V : visitor O) h, h_size h <= cap + 8 ->
  W rep calls 2 0 1 8 (parse_record_with_header pl PB V h).
Proof.
  intros O V h Hh p l a Hr Hw. rewrite record_with_header_eq. revert p l a Hr Hw.
  change (W rep calls 2 0 1 8 (r <- collect_with_header pl PB h ;; lift (deliver V (fst r) (snd r)))).
  eapply W_mono; [eapply W_bind; [apply W_collect_with_header, Hh|intros; apply W_lift]|lia..].
Qed.

Lemma W_metadata : W rep calls 2 3 4 0 (parse_metadata pl PB).
Proof.
  unfold parse_metadata.
  eapply W_mono; [eapply W_bind_safe with (b1 := 3) (b2 := 0) (e1 := 4) (e2 := 1) (k1 := 0) (k2 := 0)|..].
  - apply (W_header_two pl PB mo fin cap mem rep calls HC Hcalls).
  - intros a0. apply (s_header pl PB mo fin cap mem rep a0 HC).
  - intros h Hh. apply W_metadata_with_header. cbv beta in Hh. lia.
  - lia. - lia. - lia. - lia.
Qed.

Lemma W_attr : W rep calls 2 2 3 0 (parse_attr pl PB).
Proof.
  unfold parse_attr.
  eapply W_mono; [eapply W_bind; [apply (W_u32_two pl PB mo fin cap mem rep calls HC Hcalls)|]|..].
  - intros t. eapply W_bind; [apply (W_u32_two pl PB mo fin cap mem rep calls HC Hcalls)|]. intros s.
    eapply W_if; [apply W_fail|].
    instantiate (1 := 0). instantiate (1 := 1). instantiate (1 := 0).
    destruct (checked_sub (as_usize pl s) 4) as [n|]; [|eapply W_mono; [apply W_panic|apply N.le_refl|lia..]].
    eapply W_mono; [eapply W_bind_safe with (b1 := 0) (b2 := 0) (e1 := 1) (e2 := 0) (k1 := 0) (k2 := 0)|..].
    + apply (W_split PB mo fin cap mem rep calls HC Hcalls).
    + intros a0. apply (s_split PB mo fin cap mem rep a0 HC).
    + intros q (Hlog & d & a & Hrep & Hlen & Hwd).
      apply W_sub; [exact (lift Panic)|].
      destruct (W_attr_fields pl cursor_buf mo eof_error n mem _ _ (cursor_contract mo n mem) (zero_counts _ _)
        t s q d a Hrep Hwd) as (r & p' & n2 & c2 & E & _ & _ & _ & Hl & _).
      rewrite E. cbn [snd]. rewrite Hlog in Hl. exact Hl.
    + lia. + lia. + lia. + lia.
  - lia. - lia. - lia. - lia.
Qed.
End Top.
