(** Whole records are no larger than the bytes they were read from. *)
From Coq Require Import NArith List Bool Lia.
From Verif Require Import Base BaseFacts Types Platform Config Buf Parser Contract Flat Refine.
From Verif Require Import Instances Prims Records Sample Record RefFrame Work WorkTop Size SizeFacts.
Import ListNotations.
Open Scope N_scope.

Lemma sub_ok : forall S S2 A (m : M S2 A) (q : parser S2) (p p' : parser S) a, sub m q p = (Ok a, p') ->
  exists q', m q = (Ok a, q') /\ p_off p' = p_off p /\ p_log p' = p_log q' ++ p_log p.
Proof.
  intros S S2 A m q p p' a E. unfold sub in E. destruct (m q) as [r q'].
  injection E as -> <-. exists q'. auto.
Qed.

Lemma Read_bind : forall S A B (m : M S A) (k : A -> M S B),
  Read (fun _ => 0) m -> (forall x, Read (fun _ => 0) (k x)) -> Read (fun _ => 0) (bind m k).
Proof.
  intros S A B m k Hm Hk p b p' E. apply bind_ok in E. destruct E as (x & p1 & E1 & E).
  destruct (Hm _ _ _ E1) as [O1 L1]. destruct (Hk _ _ _ _ E) as [O2 L2]. split; [lia|congruence].
Qed.

Lemma Read_ret : forall S A (x : A), Read (fun _ => 0) (@ret S A x).
Proof. intros S A x p b p' E. apply ret_ok in E. destruct E as [_ ->]. split; [lia|reflexivity]. Qed.

Lemma split_read : forall S (PB : parsebuf S) n, Read (fun _ => 0) (split_at PB n).
Proof.
  intros S PB n. apply Read_bind.
  - apply Read_bind; [|intros; apply Read_ret].
    apply Read_from with (I := fun _ => 0); [reflexivity|].
    intros [k x] p r p' E. destruct (k =? 0).
    + un E. split; [lia|reflexivity].
    + un E. destruct (chunk_read _ _ _ _ E0) as [O1 L1]. destruct (advance_read _ _ _ _ _ E1) as [O2 L2].
      split; [lia|congruence].
  - intros c. apply Read_bind; [|intros; apply Read_ret].
    intros p b p' E. injection E as _ <-. split; [lia|reflexivity].
Qed.

Lemma split_ok : forall S (PB : parsebuf S) mo fin cap mem rep n p l a q p',
  contract PB mo fin cap mem rep -> rep (p_buf p) l a -> wf l -> split_at PB n p = (Ok q, p') ->
  n <= len l /\ p_off p' = p_off p + n /\ p_log p' = p_log p /\ p_off q = 0 /\ p_log q = [] /\
  cu_offset (p_buf q) = 0 /\ rep (p_buf p') (drop n l) (a + n) /\
  wf (take n l) /\ cursor_rep mo n mem (p_buf q) (take n l) a.
Proof.
  intros S PB mo fin cap mem rep n p l a q p' HC Hr Hw E.
  assert (L : p_log p' = p_log p).
  { apply (split_read _ PB n _ _ _ E). }
  rewrite <- (N.add_0_r a) in Hr.
  pose proof (split_spec PB mo fin cap mem rep a HC n p l 0 Hr Hw) as H.
  destruct (f_split n _ l 0) as [st l' pos' ev|e l' pos' ev].
  - destruct H as (q1 & p1 & E1 & Hs & Hst & Hl & _ & Hn & -> & -> & ->).
    rewrite E in E1. injection E1 as <- <-.
    destruct Hs as (_ & Ho & Hlog & Hcu & _ & Hwf & Hrep). cbn [fst snd] in *. rewrite N.add_0_r in Hrep.
    pose proof (st_rep _ _ _ _ _ _ _ _ _ Hst) as Hr'. rewrite N.add_0_l in Hr'.
    destruct (st_len _ _ _ _ _ _ _ _ _ Hst) as (k & _ & _ & Hk & Hoff). rewrite !N.add_0_l in Hk. rewrite <- Hk in Hoff.
    auto 12.
  - destruct H as (p1 & E1 & _). rewrite E in E1. discriminate.
Qed.

(** What [parse_metadata_with_header] leaves for the body. *)
Lemma metadata_fits : forall pl S (PB : parsebuf S) mo fin cap mem rep h p l a q md p',
  contract PB mo fin cap mem rep -> rep (p_buf p) l a -> wf l ->
  parse_metadata_with_header pl PB h p = (Ok (q, md), p') ->
  exists n d b, cursor_rep mo n mem (p_buf q) d b /\ wf d /\ cu_offset (p_buf q) = 0 /\
    p_off p + len d + id_bytes (md_sample_id md) <= p_off p' /\ total (p_log p') = total (p_log p).
Proof.
  intros pl S PB mo fin cap mem rep h p l a q md p' HC Hr Hw E. unfold parse_metadata_with_header in E.
  destruct (checked_sub (h_size h) 8) as [n|]; [|discriminate].
  apply bind_ok in E. destruct E as (r & p1 & E1 & E).
  destruct (split_ok _ _ _ _ _ _ _ _ _ _ _ _ _ HC Hr Hw E1) as (Hn & O1 & L1 & Oq & Lq & Cq & _ & Hwd & Hrep).
  destruct (_ || _).
  - apply ret_ok in E. destruct E as [E ->]. injection E as -> ->.
    exists n, (take n l), a. split; [exact Hrep|]. split; [exact Hwd|]. split; [exact Cq|].
    rewrite L1, len_take. cbn. lia.
  - destruct (checked_sub n (estimate_len (p_cfg r))) as [k|]; [|discriminate].
    apply bind_ok in E. destruct E as ([q1 si] & p2 & E2 & E). apply ret_ok in E. destruct E as [E ->].
    cbn [fst snd] in E. injection E as -> ->. cbn [new_metadata md_sample_id].
    apply sub_ok in E2. destruct E2 as (r' & E2 & O2 & L2).
    apply bind_ok in E2. destruct E2 as (q2 & r1 & E3 & E2). apply bind_ok in E2. destruct E2 as (si' & r2 & E4 & E2).
    apply ret_ok in E2. destruct E2 as [E2 ->]. injection E2 as -> ->.
    destruct (split_ok _ _ _ _ _ _ _ _ _ _ _ _ _ (cursor_contract mo n mem) Hrep Hwd E3)
      as (Hk & O3 & L3 & _ & _ & C2 & Hrep1 & Hwd2 & Hrep2).
    pose proof (sample_id_fed pl cursor_buf _ _ _ E4) as [O4 L4].
    destruct (W_sample_id pl cursor_buf mo eof_error n mem _ _ (cursor_contract mo n mem) (zero_counts _ _)
      r1 _ _ Hrep1 (wf_drop _ _ Hwd)) as (x & r3 & m & c & E5 & Hm & O5 & _ & L5 & _).
    rewrite E4 in E5. injection E5 as <- <-.
    rewrite N.add_0_r in L5. rewrite L3, Lq in L5.
    destruct (p_log r2) as [|y t] eqn:Elog; [|rewrite len_cons, len_nil in L5; lia].
    exists k, (take k (take n l)), a. split; [exact Hrep2|]. split; [exact Hwd2|]. split; [exact C2|].
    rewrite L2, L1. cbn [app]. rewrite len_take. rewrite len_drop in Hm. rewrite len_take in *. lia.
Qed.

Lemma record_fits : forall pl S (PB : parsebuf S) mo fin cap mem rep h p l a b md p',
  contract PB mo fin cap mem rep -> rep (p_buf p) l a -> wf l ->
  collect_with_header pl PB h p = (Ok (b, md), p') ->
  p_off p + body_bytes b + id_bytes (md_sample_id md) <= p_off p' /\
  total (p_log p') + p_off p <= total (p_log p) + p_off p'.
Proof.
  intros pl S PB mo fin cap mem rep h p l a b md p' HC Hr Hw E. unfold collect_with_header in E.
  apply bind_ok in E. destruct E as ([q md'] & p1 & E1 & E).
  destruct (metadata_fits _ _ _ _ _ _ _ _ _ _ _ _ _ _ _ HC Hr Hw E1) as (n & d & x & Hrep & Hwd & Hcu & Hoff & Hlog).
  destruct (cursor_as_slice (p_buf q)) as [[y dd]|] eqn:Esl.
  - apply bind_ok in E. destruct E as (b' & p2 & E2 & E). apply ret_ok in E. destruct E as [E ->]. injection E as -> ->. rename md' into md.
    apply sub_ok in E2. destruct E2 as (q' & E2 & O2 & L2).
    unfold cursor_as_slice in Esl.
    destruct Hrep as (start & cs & H1 & H2 & H3 & H4 & H5 & H6 & H7).
    assert (Ecs : cs = [Borrowed y dd]).
    { rewrite <- (rev_involutive cs), <- H1.
      destruct (cu_chunks (p_buf q)) as [|[a' d'|] [|]]; try discriminate.
      injection Esl as -> ->. reflexivity. }
    subst cs. cbn [chunks_ok map concat cow_list] in *. rewrite Hcu in *.
    rewrite drop_0, app_nil_r in H5. destruct H3 as (Hne & (Hm & Hmo) & _).
    set (p0 := new_parser (mkSlice y dd) (with_misc (p_cfg q) (md_misc md))) in *.
    assert (Hr0 : slice_rep n mem (p_buf p0) d y).
    { unfold p0. cbn [p_buf new_parser]. split; [cbn; congruence|]. split; [reflexivity|].
      rewrite H5 at 1. split; [exact Hm|]. lia. }
    destruct (W_body pl slice_buf Whole eof_error n mem _ _ (slice_contract n mem) (zero_counts _ _)
      (md_ty md) p0 d y Hr0 Hwd) as (r & q1 & n2 & c2 & E3 & Hn2 & O3 & _).
    rewrite E2 in E3. injection E3 as <- <-.
    destruct (body_fed pl slice_buf _ _ _ _ E2) as [O4 L4].
    rewrite L2, total_app. cbn [p0 new_parser p_off p_log total] in *. lia.
  - apply bind_ok in E. destruct E as (b' & p2 & E2 & E). apply ret_ok in E. destruct E as [E ->]. injection E as -> ->. rename md' into md.
    apply sub_ok in E2. destruct E2 as (q' & E2 & O2 & L2).
    set (p0 := new_parser (p_buf q) (with_misc (p_cfg q) (md_misc md))) in *.
    destruct (W_body pl cursor_buf mo eof_error n mem _ _ (cursor_contract mo n mem) (zero_counts _ _)
      (md_ty md) p0 d x Hrep Hwd) as (r & q1 & n2 & c2 & E3 & Hn2 & O3 & _).
    rewrite E2 in E3. injection E3 as <- <-.
    destruct (body_fed pl cursor_buf _ _ _ _ E2) as [O4 L4].
    rewrite L2, total_app. cbn [p0 new_parser p_off p_log total] in *. lia.
Qed.

Lemma collect_fits : forall pl S (PB : parsebuf S) mo fin cap mem rep p l a b md p',
  contract PB mo fin cap mem rep -> rep (p_buf p) l a -> wf l -> collect pl PB p = (Ok (b, md), p') ->
  p_off p + record_bytes b md <= p_off p' /\
  total (p_log p') + p_off p + 8 <= total (p_log p) + p_off p'.
Proof.
  intros pl S PB mo fin cap mem rep p l a b md p' HC Hr Hw E. unfold collect in E.
  apply bind_ok in E. destruct E as (h & p1 & E1 & E).
  destruct (header_fed pl PB _ _ _ E1) as [O1 L1].
  destruct (W_header pl PB mo fin cap mem rep _ HC (zero_counts _ PB) p l a Hr Hw)
    as (r & q & n & c & E2 & Hn & O2 & _ & L2 & Hq).
  rewrite E1 in E2. injection E2 as <- <-. destruct Hq as [Hr1 _].
  destruct (record_fits _ _ _ _ _ _ _ _ _ _ _ _ _ _ _ HC Hr1 (wf_drop _ _ Hw) E) as [O3 L3].
  assert (L4 : p_log p1 = p_log p).
  { unfold parse_header in E1. un E1.
    unfold parse_u32, parse_u16 in *. un E0. un E2. un E3.
    repeat match goal with E : parse_array _ _ _ = (Ok _, _) |- _ => apply array_read in E; destruct E end. congruence. }
  unfold record_bytes. rewrite L4 in L3. split; [lia|].
  lia.
Qed.

(** The visitor which keeps what it is told. *)
Definition keeper : visitor (body cow * metadata) := mkVisitor (fun _ => Panic)
  (Some (fun r md => Ok (BMmap r, md))) (Some (fun r md => Ok (BLost r, md))) (Some (fun r md => Ok (BComm r, md)))
  (Some (fun r md => Ok (BExit r, md))) (Some (fun r md => Ok (BThrottle r, md)))
  (Some (fun r md => Ok (BUnthrottle r, md))) (Some (fun r md => Ok (BFork r, md)))
  (Some (fun r md => Ok (BRead r, md))) (Some (fun r md => Ok (BSample r, md)))
  (Some (fun r md => Ok (BMmap2 r, md))) (Some (fun r md => Ok (BAux r, md)))
  (Some (fun r md => Ok (BItraceStart r, md))) (Some (fun r md => Ok (BLostSamples r, md)))
  (Some (fun md => Ok (BSwitch, md))) (Some (fun r md => Ok (BSwitchCpuWide r, md)))
  (Some (fun r md => Ok (BNamespaces r, md))) (Some (fun r md => Ok (BKsymbol r, md)))
  (Some (fun r md => Ok (BBpfEvent r, md))) (Some (fun r md => Ok (BCgroup r, md)))
  (Some (fun r md => Ok (BTextPoke r, md))) (Some (fun r md => Ok (BAuxOutputHwId r, md)))
  (Some (fun r md => Ok (BUnknown r, md))).

Lemma keeper_keeps : forall b md, deliver keeper b md = Ok (b, md).
Proof. intros b md. destruct b; reflexivity. Qed.

Lemma kept_collect : forall pl S (PB : parsebuf S) p b md p',
  parse_record pl PB keeper p = (Ok (b, md), p') -> collect pl PB p = (Ok (b, md), p').
Proof.
  intros pl S PB p b md p' E. rewrite record_eq in E. apply bind_ok in E.
  destruct E as ([b' md'] & q & E1 & E). apply lift_ok in E. destruct E as [E ->].
  cbn [fst snd] in E. rewrite keeper_keeps in E. congruence.
Qed.
