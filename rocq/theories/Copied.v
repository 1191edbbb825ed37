(** What sources that never lend memory give: the flat parsers again, with the
    quirk of TEXT_POKE built in.  No event can spoil the result any more. *)
From Coq Require Import NArith List Bool Lia.
From Verif Require Import Base BaseFacts Types Platform Config Buf Parser Contract Flat Refine.
From Verif Require Import Instances Prims Slices Records Sample Record Attr Views RefRecords.
From Verif Require Import RefFrame RefTop ConfFacts Spec NoHint FrameFacts RoundFacts SameFacts.
From Verif Require Import PokeFacts.
Import ListNotations.
Open Scope N_scope.

(** The bytes of a TEXT_POKE record, gathered in a vector, after splitting. *)
Definition poke_halves (x : N * N * N * list N) : text_poke list :=
  let '(addr, ol, nl, b) := x in
  if ol =? 0 then mkTextPoke addr b []
  else if ol =? len b then mkTextPoke addr [] (take nl b)
  else mkTextPoke addr (take ol b) (take nl (drop ol b)).

Definition f_poke_copied (pl : platform) : F (text_poke list) :=
  x <~ f_poke_raw pl ;; fret (poke_halves x).

Definition f_body_copied (pl : platform) (t : N) : F (body list) :=
  if t =? 20 then r <~ f_poke_copied pl ;; fret (BTextPoke r) else f_body pl t.

Definition f_record_with_header_copied (pl : platform) (h : header) : F (body list * metadata) :=
  r <~ f_metadata_with_header pl h ;;
  c <~ fcfg ;;
  b <~ f_sub (f_body_copied pl (h_type h)) (with_misc c (h_misc h)) (fst r) ;;
  fret (b, snd r).

Definition f_record_copied (pl : platform) : F (body list * metadata) :=
  h <~ f_header pl ;; f_record_with_header_copied pl h.

Lemma f_poke_raw_bound : forall pl env l pos,
  match f_poke_raw pl env l pos with
  | FOk (_, ol, _, b) _ _ _ => ol <= len b
  | FErr _ _ _ _ => True
  end.
Proof.
  intros pl env l pos. unfold f_poke_raw, fbind.
  destruct (f_uint pl 8 env l pos) as [addr l1 p1 e1|]; [|exact I].
  destruct (f_uint pl 2 env l1 p1) as [ol l2 p2 e2|]; [|exact I].
  destruct (f_uint pl 2 env l2 p2) as [nl l3 p3 e3|]; [|exact I].
  unfold f_take. pose proof (round_up_bound (ol + nl)) as B. destruct l3 as [|y l3]; [exact I|].
  destruct (N.ltb_spec (len (y :: l3)) (round_up_mod (ol + nl) 4 8)) as [Hl|Hl]; [exact I|].
  cbn [fret]. rewrite len_take. lia.
Qed.

Lemma poke_parts_owned : forall addr ol nl b, ol <= len b ->
  exists r, poke_parts (addr, ol, nl, Owned b) = Ok r /\ view_text_poke r = poke_halves (addr, ol, nl, b).
Proof.
  intros addr ol nl b Hb. unfold poke_parts, poke_halves, cow_split_at.
  destruct (N.eqb_spec ol 0) as [E0|E0]; [|destruct (N.eqb_spec ol (len b)) as [E1|E1]].
  - destruct (truncate_take N (Borrowed 0 []) nl) as (v & -> & Ev). eexists. split; [reflexivity|].
    unfold view_text_poke. cbn. rewrite Ev. cbn [cow_list]. now rewrite take_all by (cbn; lia).
  - destruct (truncate_take N (Owned b) nl) as (v & -> & Ev). eexists. split; [reflexivity|].
    unfold view_text_poke. cbn. now rewrite Ev.
  - replace (len b <? ol) with false by (symmetry; apply N.ltb_ge; lia).
    destruct (truncate_take N (Owned (drop ol b)) nl) as (v & -> & Ev). eexists. split; [reflexivity|].
    unfold view_text_poke. cbn. now rewrite Ev.
Qed.

Section Copied.
Context (pl : platform) {S : Type} (PB : parsebuf S) (fin : perror) (cap : N)
  (mem : memory) (rep : S -> list N -> N -> Prop) (a0 : N).
Context (HC : contract PB NoExt fin cap mem rep) (Hcap : cap <= isize_max pl).

Definition shows_as (x : body cow) (y : body list) : Prop := view_body x = y.

Lemma Ref_poke_copied : Ref NoExt fin cap rep a0 (fun x y => view_text_poke x = y)
  (parse_text_poke pl PB) (f_poke_copied pl).
Proof.
  intros p l pos Hr Hw. rewrite poke_eq.
  pose proof (Ref_poke_raw pl PB NoExt fin cap mem rep a0 HC Hcap p l pos Hr Hw) as G.
  pose proof (f_poke_raw_bound pl (mkEnv (p_cfg p) fin) l pos) as B.
  unfold f_poke_copied, fbind.
  destruct (f_poke_raw pl (mkEnv (p_cfg p) fin) l pos) as [x l' pos' ev|e l' pos' ev].
  - cbn [fret]. intros He. apply Forall_app in He as [He _].
    destruct (G He) as ([[[addr ol] nl] c] & p' & E & (Hx & [Hc _] & Ho) & Hs).
    destruct x as [[[addr' ol'] nl'] b]. cbn [fst snd] in *. injection Hx as -> -> ->.
    specialize (Ho eq_refl). destruct c as [|c]; [contradiction|]. cbn [cow_list] in Hc. subst c.
    destruct (poke_parts_owned addr' ol' nl' b B) as (r & Er & Ev).
    exists r, p'. unfold bind. rewrite E. unfold lift. rewrite Er. auto.
  - intros He. destruct (G He) as (p' & E & Hs). exists p'. unfold bind. now rewrite E.
Qed.

Lemma Ref_body_copied : forall t,
  Ref NoExt fin cap rep a0 shows_as (parse_body pl PB t) (f_body_copied pl t).
Proof.
  intros t. unfold f_body_copied. destruct (N.eqb_spec t 20) as [->|E].
  - change (parse_body pl PB 20) with (r <- parse_text_poke pl PB ;; ret (BTextPoke r)).
    eapply Ref_bind; [apply Ref_poke_copied|]. intros x y <-. apply Ref_ret. reflexivity.
  - eapply Ref_weaken; [|eapply Ref_body; eassumption]. intros x y [H _]. exact H.
Qed.
End Copied.

Section Record.
Context (pl : platform) {S : Type} (PB : parsebuf S) (fin : perror) (cap : N)
  (mem : memory) (rep : S -> list N -> N -> Prop) (a0 : N).
Context (HC : contract PB NoExt fin cap mem rep) (H16 : 65536 <= cap) (Hcap : cap <= isize_max pl).

Definition shows_record (x : body cow * metadata) (y : body list * metadata) : Prop :=
  view_body (fst x) = fst y /\ snd x = snd y.

Lemma RefC_collect_copied : forall c h, h_size h < 65536 ->
  RefC NoExt fin cap rep a0 c shows_record (collect_with_header pl PB h) (f_record_with_header_copied pl h).
Proof.
  intros c h Hh. unfold collect_with_header, f_record_with_header_copied.
  eapply RefC_bind with (R := fun x y => rel_meta NoExt mem a0 c x y /\
     (md_ty (snd y) = h_type h /\ md_misc (snd y) = h_misc h)).
  { intros p l pos Hc Hr Hw.
    pose proof (RefC_metadata_with_header pl PB NoExt fin cap mem rep a0 HC H16 c h Hh p l pos Hc Hr Hw) as G.
    pose proof (f_metadata_meta pl h (mkEnv c fin) l pos) as G2.
    destruct (f_metadata_with_header pl h _ l pos) as [b l' pos' ev|]; [|exact G].
    intros He. destruct (G He) as (a & p' & E & HR & Hs). exists a, p'; auto. }
  intros [q md] [st md'] [[E (n & Hn & Hq)] [Ety Emi]]. cbn [fst snd] in *. subst md'.
  rewrite Ety, Emi. apply RefC_fcfg.
  destruct Hq as (Ec & Eo & El & Eof & Elen & Hwq & Hrep). rewrite Ec.
  destruct (cursor_as_slice (p_buf q)) as [[x d]|] eqn:Esl.
  - exfalso. unfold cursor_as_slice in Esl.
    destruct Hrep as (start & cs & H1 & H2 & H3 & H4 & H5 & H6 & H7).
    assert (Ecs : cs = [Borrowed x d]).
    { rewrite <- (rev_involutive cs), <- H1.
      destruct (cu_chunks (p_buf q)) as [|[a' d'|] [|]]; try discriminate.
      injection Esl as -> ->. reflexivity. }
    subst cs. cbn [chunks_ok] in H3. tauto.
  - eapply RefC_bind with (R := shows_as).
    + apply (RefC_sub NoExt fin cap rep a0 c _ _ _ _ (cursor_rep NoExt cap mem) NoExt a0);
        cbn [p_cfg p_log p_buf new_parser]; try reflexivity; try assumption; auto.
      * apply Ref_RefC. eapply Ref_body_copied; [apply cursor_contract|assumption].
      * eapply cursor_rep_mono; [|exact Hrep]. lia.
    + intros b b' Hb. apply RefC_ret. split; [exact Hb|reflexivity].
Qed.

Lemma Ref_collect_copied : Ref NoExt fin cap rep a0 shows_record (collect pl PB) (f_record_copied pl).
Proof.
  unfold collect, f_record_copied.
  eapply Ref_bind; [apply (Ref_header_b pl PB NoExt fin cap mem rep a0 HC)|]. intros h ? [<- Hh].
  apply RefC_Ref. intros c. now apply RefC_collect_copied.
Qed.
End Record.

(** No TEXT_POKE event is left. *)
Lemma copied_events : forall pl a env l,
  match f_record_copied pl env l 0 with FOk _ _ _ ev | FErr _ _ _ ev => Forall (ev_ok NoExt a) ev end.
Proof.
  intros pl a env l.
  assert (G : evs (fun _ => True) (ev_ok NoExt a) (f_record_copied pl)); [|exact (G env l 0 I)].
  unfold f_record_copied. apply evs_bind; [apply evs_noev, noev_header|]. intros h.
  unfold f_record_with_header_copied.
  apply evs_bind; [now apply evs_metadata|]. intros r. apply evs_cfg_bind. intros c Hc.
  apply evs_bind; [|intros; apply evs_ret].
  apply evs_sub; [|exact I]. unfold f_body_copied.
  destruct (N.eqb_spec (h_type h) 20) as [E|E].
  - apply evs_bind; [|intros; apply evs_ret]. apply evs_bind; [|intros; apply evs_ret].
    apply evs_noev, noev_poke_raw.
  - intros env' l' pos' _. pose proof (evs_body_poke pl (h_type h) env' l' pos' I) as H.
    destruct (f_body pl (h_type h) env' l' pos'); revert H; apply Forall_impl;
      intros [al q|] H; cbn; try exact I; destruct H as [H|H]; [contradiction|now elim H|contradiction|now elim H].
Qed.

Lemma collect_copied : forall pl S (PB : parsebuf S) fin cap mem rep a0, pl_ok pl ->
  contract PB NoExt fin cap mem rep ->
  Ref NoExt fin 65536 rep a0 shows_record (collect pl PB) (f_record_copied pl).
Proof.
  intros pl S PB fin cap mem rep a0 Hpl HC.
  rewrite collect_no_hint. pose proof (record_cap pl Hpl).
  apply (Ref_collect_copied pl (no_hint PB) fin 65536 mem rep a0); try assumption; try lia.
  now apply no_hint_contract with (cap := cap).
Qed.

(** Only the bytes of the record matter. *)
Lemma copied_local : forall pl c fin1 fin2 r x1 x2, 8 <= len r ->
  from_order (order_of pl (c_endian c)) (take 2 (drop 6 r)) <= len r ->
  same_out (f_record_copied pl (mkEnv c fin1) (r ++ x1) 0) (f_record_copied pl (mkEnv c fin2) (r ++ x2) 0).
Proof.
  intros pl c fin1 fin2 r x1 x2 Hr Hs. unfold f_record_copied, fbind.
  rewrite !header_app_1 by exact Hr. cbv zeta.
  set (h := mkHeader _ _ _). change (from_order _ (take 2 (drop 6 r))) with (h_size h) in Hs.
  clearbody h.
  assert (G : same_out (f_record_with_header_copied pl h (mkEnv c fin1) (drop 8 r ++ x1) (0 + 8))
                       (f_record_with_header_copied pl h (mkEnv c fin2) (drop 8 r ++ x2) (0 + 8))).
  { unfold f_record_with_header_copied. apply same_bind.
    2: { intros b. repeat first [apply blind_ret|apply blind_cfg|apply blind_sub|apply blind_bind; [|intros ?]]. }
    unfold f_metadata_with_header. destruct (N.ltb_spec (h_size h) 8); [cbn; auto|].
    apply same_bind.
    - rewrite !split_app_1 by (rewrite len_drop; lia). cbn. auto.
    - intros st. destruct (_ || _); [apply blind_ret|]. apply blind_bind; [apply blind_cfg|].
      intros c'. destruct (_ <? _); [apply blind_fail|].
      repeat first [apply blind_ret|apply blind_sub|apply blind_bind; [|intros ?]]. }
  destruct (f_record_with_header_copied pl h (mkEnv c fin1) _ _);
    destruct (f_record_with_header_copied pl h (mkEnv c fin2) _ _); cbn in *; tauto.
Qed.
