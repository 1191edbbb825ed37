(** What becomes of a TEXT_POKE record, for every cut of the input. *)
From Coq Require Import NArith List Bool Lia.
From Verif Require Import Base BaseFacts Types Platform Config Buf Parser Contract Flat Refine.
From Verif Require Import Instances Prims Slices Records Sample Record Attr Views RefRecords.
From Verif Require Import RefFrame RefTop Wire Codec Bits ConfFacts Roundtrip RtSample RtRecord.
From Verif Require Import Spec NoHint FrameFacts RoundFacts Keep.
Import ListNotations.
Open Scope N_scope.

Section Raw.
Context (pl : platform) {S : Type} (PB : parsebuf S).

(** [parse_text_poke] up to the splitting of the bytes. *)
Definition poke_raw : M S (N * N * N * cow N) :=
  addr <- parse_u64 pl PB ;; ol <- parse_u16 pl PB ;; nl <- parse_u16 pl PB ;;
  b <- parse_bytes pl PB (round_up_mod (ol + nl) 4 8) ;; ret (addr, ol, nl, b).

Definition poke_parts (x : N * N * N * cow N) : out (text_poke cow) :=
  let '(addr, ol, nl, b) := x in
  match cow_split_at 1 b ol with
  | Ok (u, v) => match cow_truncate v nl with
                 | Ok v' => Ok (mkTextPoke addr u v')
                 | Err e => Err e | Panic => Panic | Fuel => Fuel
                 end
  | Err e => Err e | Panic => Panic | Fuel => Fuel
  end.

Lemma poke_eq : forall p, parse_text_poke pl PB p = bind poke_raw (fun x => lift (poke_parts x)) p.
Proof.
  intros p. unfold parse_text_poke, poke_raw, bind, lift, ret.
  destruct (parse_u64 pl PB p) as [[addr| | |] p1]; try reflexivity.
  destruct (parse_u16 pl PB p1) as [[ol| | |] p2]; try reflexivity.
  destruct (parse_u16 pl PB p2) as [[nl| | |] p3]; try reflexivity. cbv zeta.
  destruct (parse_bytes pl PB _ p3) as [[b| | |] p4]; try reflexivity. unfold poke_parts.
  destruct (cow_split_at 1 b ol) as [[u v]| | |]; try reflexivity. cbn [fst snd].
  destruct (cow_truncate v nl); reflexivity.
Qed.
End Raw.

Definition f_poke_raw (pl : platform) : F (N * N * N * list N) :=
  addr <~ f_uint pl 8 ;; ol <~ f_uint pl 2 ;; nl <~ f_uint pl 2 ;;
  b <~ f_take (round_up_mod (ol + nl) 4 8) ;; fret (addr, ol, nl, b).

(** What the bytes of a record are split into: [old], then [new] and padding. *)
Definition poke_kept (old new : list N) (r : text_poke cow) : Prop :=
  cow_list (tp_old r) = old /\ cow_list (tp_new r) = new.
Definition poke_lost (old new pad : list N) (r : text_poke cow) : Prop :=
  (old = [] /\ cow_list (tp_old r) = new ++ pad /\ cow_list (tp_new r) = []) \/
  (new = [] /\ pad = [] /\ cow_list (tp_old r) = [] /\ cow_list (tp_new r) = []).

Definition owned {A : Type} (c : cow A) : Prop := match c with Owned _ => True | Borrowed _ _ => False end.

Lemma truncate_take : forall A (c : cow A) n, exists c', cow_truncate c n = Ok c' /\
  cow_list c' = take n (cow_list c).
Proof.
  intros A [a d|d] n; cbn [cow_list cow_truncate]; [|eexists; split; reflexivity].
  destruct (N.ltb_spec (len d) n) as [H|H]; eexists; (split; [reflexivity|]); [|reflexivity].
  cbn [cow_list]. symmetry. apply take_all. lia.
Qed.

Lemma poke_parts_spec : forall addr old new pad b, cow_list b = old ++ new ++ pad ->
  exists r, poke_parts (addr, len old, len new, b) = Ok r /\ tp_addr r = addr /\
    (~ owned b -> poke_kept old new r) /\
    (owned b -> (old = [] \/ (new = [] /\ pad = []) -> poke_lost old new pad r) /\
                (old <> [] -> new <> [] \/ pad <> [] -> poke_kept old new r)).
Proof.
  intros addr old new pad b E. unfold poke_parts.
  assert (El : len (cow_list b) = len old + len new + len pad) by (rewrite E, !len_app; lia).
  assert (Et : take (len old) (cow_list b) = old) by (rewrite E; now apply take_app_exact).
  assert (Ed : drop (len old) (cow_list b) = new ++ pad) by (rewrite E; now apply drop_app_exact).
  assert (En : take (len new) (new ++ pad) = new) by now apply take_app_exact.
  destruct b as [x d|d]; cbn [cow_list cow_split_at owned] in *.
  - replace (len d <? len old) with false by (symmetry; apply N.ltb_ge; lia).
    destruct (truncate_take _ (Borrowed (x + 1 * len old) (drop (len old) d)) (len new)) as (v & -> & Ev).
    eexists. split; [reflexivity|]. split; [reflexivity|]. split; [intros _|contradiction].
    split; cbn [tp_old tp_new cow_list]; [exact Et|]. rewrite Ev. cbn [cow_list]. now rewrite Ed.
  - destruct (N.eqb_spec (len old) 0) as [E0|E0]; [|destruct (N.eqb_spec (len old) (len d)) as [E1|E1]].
    + apply len_0 in E0. subst old. cbn [app] in E.
      destruct (truncate_take N (Borrowed 0 []) (len new)) as (v & -> & Ev).
      eexists. split; [reflexivity|]. split; [reflexivity|]. split; [intros H; now elim H|].
      intros _. split; [|intros H; now elim H]. intros _. left. cbn [tp_old tp_new cow_list] in *.
      split; [reflexivity|]. split; [exact E|]. rewrite Ev. cbn [cow_list]. apply take_all. cbn. lia.
    + assert (En0 : new = []) by (apply len_0; lia). assert (Ep0 : pad = []) by (apply len_0; lia). subst new pad.
      destruct (truncate_take N (Owned d) (len (@nil N))) as (v & -> & Ev).
      eexists. split; [reflexivity|]. split; [reflexivity|]. split; [intros H; now elim H|].
      intros _. split; [|intros _ [H|H]; now elim H]. intros _. right. cbn [tp_old tp_new cow_list] in *.
      repeat (split; [reflexivity|]). rewrite Ev. destruct d; reflexivity.
    + replace (len d <? len old) with false by (symmetry; apply N.ltb_ge; lia).
      destruct (truncate_take N (Owned (drop (len old) d)) (len new)) as (v & -> & Ev).
      eexists. split; [reflexivity|]. split; [reflexivity|]. split; [intros H; now elim H|].
      intros _. split.
      * intros [->|[-> ->]]; [now elim E0|]. elim E1. rewrite El. cbn. lia.
      * intros _ _. split; cbn [tp_old tp_new cow_list]; [exact Et|]. rewrite Ev. cbn [cow_list]. now rewrite Ed.
Qed.

Section Poke.
Context (pl : platform) {S : Type} (PB : parsebuf S) (mo : mode) (fin : perror) (cap : N)
  (mem : memory) (rep : S -> list N -> N -> Prop) (a0 : N).
Context (HC : contract PB mo fin cap mem rep) (Hcap : cap <= isize_max pl).

Lemma Ref_bytes_owned : forall n,
  Ref mo fin cap rep a0 (fun c l => brel mo mem c l /\ (mo = NoExt -> owned c)) (parse_bytes pl PB n) (f_take n).
Proof.
  intros n p l pos Hr Hw. pose proof (Ref_bytes pl PB mo fin cap mem rep a0 HC Hcap n p l pos Hr Hw) as G.
  destruct (f_take n _ l pos) as [b l' pos' ev|]; [|exact G].
  intros Hev. destruct (G Hev) as (c & p' & E & HR & Hs). exists c, p'. split; [exact E|].
  split; [|exact Hs]. split; [exact HR|]. intros Em.
  pose proof (bytes_direct_spec PB mo fin cap mem rep a0 HC n p l pos Hr Hw) as H.
  unfold parse_bytes in E. apply bind_inv in E as (r' & p1' & E1' & E).
  destruct l as [|y l].
  { destruct H as (p1 & E1 & _). rewrite E1 in E1'. discriminate. }
  destruct H as (r & p1 & E1 & H). rewrite E1 in E1'. injection E1' as <- <-. destruct r as [[x d]|].
  { rewrite Em in H. tauto. }
  apply bind_inv in E as (h & p2 & _ & E). cbv zeta in E.
  destruct (match h with Some hint => n <=? hint | None => false end).
  - apply bind_inv in E as (u & p3 & _ & E). apply bind_inv in E as (d & p4 & _ & E).
    injection E as <- _. exact I.
  - apply bind_inv in E as (d & p4 & _ & E). injection E as <- _. exact I.
Qed.

Definition raw_rel (x : N * N * N * cow N) (y : N * N * N * list N) : Prop :=
  fst x = fst y /\ brel mo mem (snd x) (snd y) /\ (mo = NoExt -> owned (snd x)).

Lemma Ref_poke_raw : Ref mo fin cap rep a0 raw_rel (poke_raw pl PB) (f_poke_raw pl).
Proof.
  unfold poke_raw, f_poke_raw.
  eapply Ref_bind; [eapply Ref_u64; exact HC|intros ? ? <-].
  eapply Ref_bind; [eapply Ref_u16; exact HC|intros ? ? <-].
  eapply Ref_bind; [eapply Ref_u16; exact HC|intros ? ? <-].
  eapply Ref_bind; [apply Ref_bytes_owned|intros c l [H1 H2]].
  apply Ref_ret. split; [reflexivity|now split].
Qed.
End Poke.

Lemma noev_poke_raw : forall pl, noev (f_poke_raw pl).
Proof.
  intros pl. unfold f_poke_raw. apply noev_bind; [apply noev_uint|intros ?].
  apply noev_bind; [apply noev_uint|intros ?]. apply noev_bind; [apply noev_uint|intros ?].
  apply noev_bind; [apply noev_take|intros ?]. apply noev_ret.
Qed.

Lemma Rt_poke_raw : forall pl env addr old new pad rest pos,
  let o := order_of pl (c_endian (fe_cfg env)) in
  addr < 2 ^ 64 -> len old < 65536 -> len new < 65536 -> len pad = pad8 (4 + len old + len new) ->
  Rt 0 true env (f_poke_raw pl) (w64 o addr ++ w16 o (len old) ++ w16 o (len new) ++ old ++ new ++ pad)
    (addr, len old, len new, old ++ new ++ pad) rest pos.
Proof.
  intros pl env addr old new pad rest pos o Ha Hlo Hln Hp. unfold f_poke_raw.
  eapply Rt_bind; [apply Rt_u64; assumption|].
  eapply Rt_bind; [apply Rt_u16; change (2 ^ 16) with 65536; lia|].
  eapply Rt_bind; [apply Rt_u16; change (2 ^ 16) with 65536; lia|]. cbv beta zeta.
  rewrite round_up_pad, N.add_assoc.
  eapply Rt_last; [|apply Rt_ret].
  apply Rt_take; [rewrite !len_app; lia|].
  destruct old; [|discriminate]. destruct new; [|discriminate]. destruct pad; discriminate.
Qed.

(** A part at an edge is lost exactly when the bytes were gathered in a vector. *)
Lemma poke_outcome : forall pl S (PB : parsebuf S) mo fin cap mem p addr old new pad rest a,
  let o := order_of pl (c_endian (p_cfg p)) in
  cap <= isize_max pl -> addr < 2 ^ 64 -> len old < 2 ^ 16 -> len new < 2 ^ 16 ->
  len pad = pad8 (4 + len old + len new) ->
  source PB mo fin cap mem p
    (w64 o addr ++ w16 o (len old) ++ w16 o (len new) ++ old ++ new ++ pad ++ rest) a ->
  exists r p', parse_text_poke pl PB p = (Ok r, p') /\ tp_addr r = addr /\
    (poke_kept old new r \/ poke_lost old new pad r) /\
    (mo = Whole \/ (old <> [] /\ (new <> [] \/ pad <> [])) -> poke_kept old new r) /\
    (mo = NoExt -> old = [] \/ (new = [] /\ pad = []) -> poke_lost old new pad r) /\
    after PB mo fin cap mem p (12 + len old + len new + len pad) rest a p'.
Proof.
  intros pl S PB mo fin cap mem p addr old new pad rest a o Hcap Ha Ho Hn Hp Hs.
  destruct (reads_quiet PB mo fin cap mem _ _ (raw_rel mo mem)
    (poke_raw pl PB) (f_poke_raw pl) 0 true p
    (w64 o addr ++ w16 o (len old) ++ w16 o (len new) ++ old ++ new ++ pad)
    (addr, len old, len new, old ++ new ++ pad) rest a) as (x & p' & E & (Hx & [Hc Hb] & Hno) & Haf).
  - intros rep HC. now apply Ref_poke_raw.
  - apply noev_poke_raw.
  - now apply (Rt_poke_raw pl (mkEnv (p_cfg p) fin)).
  - now rewrite <- !app_assoc.
  - destruct x as [[[x1 x2] x3] b]. cbn [fst snd] in *. injection Hx as -> -> ->.
    destruct (poke_parts_spec addr old new pad b Hc) as (r & Er & Ead & Hk & Hl).
    exists r, p'. rewrite poke_eq. unfold bind. rewrite E. unfold lift. rewrite Er.
    split; [reflexivity|]. split; [exact Ead|].
    assert (Hd : (old = [] \/ (new = [] /\ pad = [])) \/ (old <> [] /\ (new <> [] \/ pad <> []))).
    { destruct old; [now left; left|]. destruct new; [|right; split; [discriminate|left; discriminate]].
      destruct pad; [left; right; now split|right; split; [discriminate|right; discriminate]]. }
    assert (Hob : owned b \/ ~ owned b) by (destruct b; cbn; tauto).
    split; [|split; [|split]].
    + destruct Hob as [Hob|Hob]; [|left; now apply Hk].
      destruct Hd as [Hd|[Hd1 Hd2]]; [right; now apply Hl|left; now apply Hl].
    + intros [->|[H1 H2]]; [|destruct Hob as [Hob|Hob]; [now apply Hl|now apply Hk]].
      apply Hk. intros Hob'. destruct b; [exact Hob'|]. now elim Hb.
    + intros Em He. apply Hl; [now apply Hno|exact He].
    + rewrite !len_app, w64_len, !w16_len in Haf.
      replace (12 + len old + len new + len pad) with (8 + (2 + (2 + (len old + (len new + len pad))))) by lia.
      exact Haf.
Qed.

(** * Whole records *)

Lemma fresh_cursor : forall S n (m : M S (list (cow N))) p q p',
  (c <- (cs <- m ;; ret (mkCursor (rev cs) 0 n)) ;; cfg <- get_cfg ;; ret (new_parser c cfg)) p = (Ok q, p') ->
  cu_offset (p_buf q) = 0.
Proof.
  intros S n m p q p' E. apply bind_inv in E as (c & p1 & E1 & E2).
  apply bind_inv in E1 as (cs & p2 & _ & E1). injection E1 as <- _.
  unfold bind, get_cfg, ret in E2. injection E2 as <- _. reflexivity.
Qed.

Lemma split_fresh : forall S (PB : parsebuf S) n p q p', split_at PB n p = (Ok q, p') ->
  cu_offset (p_buf q) = 0.
Proof.
  intros S PB n p q p'. unfold split_at, cursor_new. apply fresh_cursor.
Qed.

Lemma metadata_fresh : forall pl S (PB : parsebuf S) p q md p',
  parse_metadata pl PB p = (Ok (q, md), p') -> cu_offset (p_buf q) = 0.
Proof.
  intros pl S PB p q md p' E. unfold parse_metadata in E. apply bind_inv in E as (h & p1 & _ & E).
  unfold parse_metadata_with_header in E.
  destruct (checked_sub (h_size h) 8) as [n|]; [|discriminate].
  apply bind_inv in E as (rp & p2 & E1 & E). apply split_fresh in E1.
  destruct (_ || _); [injection E as <- _ _; exact E1|].
  destruct (checked_sub _ _); [|discriminate].
  apply bind_inv in E as ([r si] & p3 & E2 & E). injection E as <- _ _. cbn [fst].
  apply sub_ok in E2 as (q' & E2). apply bind_inv in E2 as (r' & p4 & E2 & E3). apply split_fresh in E2.
  apply bind_inv in E3 as (si' & p5 & _ & E4). now injection E4 as <- _ _.
Qed.

(** The sub-parser of a record is one of these. *)
Lemma cursor_one_slice : forall mo cap mem c l a x d, cursor_rep mo cap mem c l a -> cu_offset c = 0 ->
  cursor_as_slice c = Some (mkSlice x d) -> d = l /\ mem_at mem x l /\ mo <> NoExt.
Proof.
  intros mo cap mem c l a x d (start & cs & H1 & H2 & H3 & H4 & H5 & _) H0 E. unfold cursor_as_slice in E.
  assert (Ecs : cs = [Borrowed x d]).
  { rewrite <- (rev_involutive cs), <- H1.
    destruct (cu_chunks c) as [|[a' d'|] [|]]; try discriminate. injection E as -> ->. reflexivity. }
  subst cs. cbn [chunks_ok map concat cow_list] in *. rewrite H0, drop_0, app_nil_r in H5. subst l.
  destruct H3 as (_ & (Hm & Hmo) & _). split; [reflexivity|]. split; [exact Hm|]. intros ->. exact Hmo.
Qed.

Lemma poke_body : forall pl S (PB : parsebuf S) p r p', parse_text_poke pl PB p = (Ok r, p') ->
  parse_body pl PB 20 p = (Ok (BTextPoke r), p').
Proof. intros pl S PB p r p' E. unfold parse_body. cbn [N.eqb Pos.eqb]. unfold bind. now rewrite E. Qed.

Lemma poke_record : forall pl S (PB : parsebuf S) mo fin cap mem w p m si r rest a,
  let o := order_of pl (c_endian (p_cfg p)) in
  let pad := zeros (pad8 (4 + len (tp_old r) + len (tp_new r))) in
  pl_ok pl -> configured (p_cfg p) w -> m < 2 ^ 16 -> sample_id_ok w si -> wbody_ok w m (WTextPoke r) ->
  len (w_record o w m si (WTextPoke r)) < 2 ^ 16 ->
  source PB mo fin cap mem p (w_record o w m si (WTextPoke r) ++ rest) a ->
  exists c p', collect pl PB p = (Ok (BTextPoke c, mkMeta 20 m si), p') /\ tp_addr c = tp_addr r /\
    (poke_kept (tp_old r) (tp_new r) c \/ poke_lost (tp_old r) (tp_new r) pad c) /\
    (mo = Whole \/ ~ poke_edge r -> poke_kept (tp_old r) (tp_new r) c) /\
    (mo = NoExt -> poke_edge r -> poke_lost (tp_old r) (tp_new r) pad c).
Proof.
  intros pl S PB mo fin cap mem w p m si r rest a o pad Hpl Hcf Hm Hsi Hok Hlen (rep & HC & Hr & Hw).
  unfold w_record in Hlen, Hr, Hw. cbv zeta in Hlen, Hr, Hw. cbn [w_trailer w_type] in Hlen, Hr, Hw.
  set (body := w_body o w (WTextPoke r)) in *. set (tr := w_sample_id o w si) in *.
  rewrite len_app, w_header_len, len_app in Hlen. rewrite len_app, <- !app_assoc in Hr, Hw.
  destruct (metadata_exact pl PB mo fin cap mem rep HC p w 20 m si body rest a) as
    (q & p1 & E1 & Hq & Hqc & _); fold o; fold tr; try assumption; try discriminate; try reflexivity.
  { lia. }
  { rewrite <- N.add_assoc. exact Hr. }
  { rewrite <- N.add_assoc. exact Hw. }
  pose proof (metadata_fresh _ _ _ _ _ _ _ E1) as Hf.
  assert (Hwb : wf body) by (apply wf_app_r in Hw; apply wf_app_l in Hw; exact Hw).
  assert (Hbl : len body = 12 + len (tp_old r) + len (tp_new r) + len pad).
  { unfold body. cbn [w_body]. fold pad. rewrite !len_app, w64_len, !w16_len. lia. }
  change (2 ^ 16) with 65536 in *.
  assert (Hcapx : 65536 <= isize_max pl) by (destruct Hpl as [E|E]; unfold isize_max; rewrite E; discriminate).
  destruct Hok as (Ha64 & _ & _).
  assert (Hpad : len pad = pad8 (4 + len (tp_old r) + len (tp_new r))) by apply zeros_len.
  assert (Hedge : poke_edge r <-> (tp_old r = [] \/ (tp_new r = [] /\ pad = []))).
  { unfold poke_edge. split; (intros [H|[H H']]; [now left|right]; split; [exact H|]).
    - apply len_0. rewrite Hpad, H, len_nil, N.add_0_r. exact H'.
    - apply (f_equal len) in H'. rewrite Hpad, H, !len_nil, N.add_0_r in H'. exact H'. }
  assert (Hnedge : ~ poke_edge r -> tp_old r <> [] /\ (tp_new r <> [] \/ pad <> [])).
  { intros H. rewrite Hedge in H. split; [tauto|]. destruct (tp_new r); [|left; discriminate].
    destruct pad; [|right; discriminate]. exfalso. apply H. right. now split. }
  assert (G : forall S2 (PB2 : parsebuf S2) mo2 (q2 : parser S2) a2,
    p_cfg q2 = with_misc (p_cfg q) m ->
    (mo = Whole -> mo2 = Whole) -> (mo = NoExt -> mo2 = NoExt) ->
    source PB2 mo2 eof_error 65536 mem q2 body a2 ->
    exists c q3, parse_body pl PB2 20 q2 = (Ok (BTextPoke c), q3) /\ tp_addr c = tp_addr r /\
      (poke_kept (tp_old r) (tp_new r) c \/ poke_lost (tp_old r) (tp_new r) pad c) /\
      (mo = Whole \/ ~ poke_edge r -> poke_kept (tp_old r) (tp_new r) c) /\
      (mo = NoExt -> poke_edge r -> poke_lost (tp_old r) (tp_new r) pad c)).
  { intros S2 PB2 mo2 q2 a2 Ec2 HW HN Hs2.
    assert (Eo : order_of pl (c_endian (p_cfg q2)) = o) by (rewrite Ec2; cbn [with_misc c_endian]; now rewrite Hqc).
    destruct (poke_outcome pl S2 PB2 mo2 eof_error 65536 mem q2 (tp_addr r) (tp_old r) (tp_new r) pad []
      a2) as (c & q3 & E & G1 & G2 & G3 & G4 & _); try assumption; try (change (2 ^ 16) with 65536; lia).
    { rewrite Eo, app_nil_r. exact Hs2. }
    exists c, q3. split; [now apply poke_body|]. split; [exact G1|]. split; [exact G2|]. split.
    - intros [H|H]; apply G3; [left; now apply HW|right; now apply Hnedge].
    - intros H He. apply G4; [now apply HN|now apply Hedge]. }
  assert (Ecol : exists res p', collect pl PB p = (res, p') /\
    forall c, (match cursor_as_slice (p_buf q) with
     | Some d => fst (parse_body pl slice_buf 20 (new_parser d (with_misc (p_cfg q) m)))
     | None => fst (parse_body pl cursor_buf 20 (new_parser (p_buf q) (with_misc (p_cfg q) m)))
     end = Ok c -> res = Ok (c, mkMeta 20 m si))).
  { unfold collect, parse_metadata in *. apply bind_inv in E1 as (h & p2 & Eh & E1).
    unfold bind at 1. rewrite Eh. unfold collect_with_header. unfold bind at 1. rewrite E1. cbn [md_ty md_misc].
    destruct (cursor_as_slice (p_buf q)) as [d|].
    - destruct (bind _ _ p1) as [res p'] eqn:Eb. exists res, p'. split; [reflexivity|]. intros c Ec.
      unfold bind, sub in Eb. destruct (parse_body pl slice_buf 20 _) as [y q3]. cbn [fst] in Ec. subst y.
      cbn [ret] in Eb. now injection Eb as <- _.
    - destruct (bind _ _ p1) as [res p'] eqn:Eb. exists res, p'. split; [reflexivity|]. intros c Ec.
      unfold bind, sub in Eb. destruct (parse_body pl cursor_buf 20 _) as [y q3]. cbn [fst] in Ec. subst y.
      cbn [ret] in Eb. now injection Eb as <- _. }
  destruct Ecol as (res & p' & Ecol & Hres).
  destruct (cursor_as_slice (p_buf q)) as [[x d]|] eqn:Esl.
  - destruct (cursor_one_slice _ _ _ _ _ _ _ _ Hq Hf Esl) as (-> & Hmx & Hno).
    destruct (G slice slice_buf Whole (new_parser (mkSlice x body) (with_misc (p_cfg q) m)) x) as (c & q3 & E & Hc);
      [reflexivity|reflexivity|intros H; now elim Hno| |].
    { exists (slice_rep 65536 mem). split; [apply slice_contract|]. split; [|exact Hwb].
      split; [reflexivity|]. cbn [p_buf new_parser sl_addr sl_data]. split; [reflexivity|split; [exact Hmx|lia]]. }
    exists c, p'. split; [|exact Hc]. rewrite Ecol. f_equal. apply Hres. now rewrite E.
  - destruct (G cursor cursor_buf mo (new_parser (p_buf q) (with_misc (p_cfg q) m)) (a + 8)) as (c & q3 & E & Hc);
      [reflexivity|auto|auto| |].
    { exists (cursor_rep mo 65536 mem). split; [apply cursor_contract|]. split; [|exact Hwb].
      apply (cursor_rep_mono mo mem (len body + len tr)); [clear - Hlen; lia|exact Hq]. }
    exists c, p'. split; [|exact Hc]. rewrite Ecol. f_equal. apply Hres. now rewrite E.
Qed.
