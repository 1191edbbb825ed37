(** Theorems: sources that never lend memory, with nothing left aside (C65, C67). *)
From Coq Require Import NArith List Bool Lia.
From Verif Require Import Base BaseFacts Types Platform Config Buf Parser Contract Flat Refine.
From Verif Require Import Instances Prims Slices Records Sample Record Attr Views RefRecords.
From Verif Require Import RefFrame RefTop Wire Codec Roundtrip ConfFacts Spec SameFacts PokeFacts Copied.
From Verif Require Import WireAttr AttrFacts Accept AcceptFacts AcceptRecord AcceptAttr ExData.
From Verif Require Import AcceptSample RoundFacts FrameFacts Faults FaultFacts Placed.
From Verif Require Import PropsFrame PropsSame PropsBorrow PropsAttr PropsAccept PropsFault PropsExact.
Import ListNotations.
Open Scope N_scope.

(** What is shown of a TEXT_POKE record with [data], padding included, after the lengths:
    if there is nothing old, everything is shown as old; if there is nothing but old bytes,
    nothing is. *)
Definition poke_shown (r : text_poke list) (data : list N) : text_poke list :=
  match tp_old r with
  | [] => mkTextPoke (tp_addr r) data []
  | _ => if len data =? len (tp_old r) then mkTextPoke (tp_addr r) [] [] else r
  end.

Lemma poke_flat : forall pl env d pos,
  match f_text_poke pl env d pos with
  | FOk r d' pos' _ => exists ev, f_poke_copied pl env d pos =
      FOk (poke_shown r (part_of 12 (round_up_mod (len (tp_old r) + len (tp_new r)) 4 8) d)) d' pos' ev /\
      12 + round_up_mod (len (tp_old r) + len (tp_new r)) 4 8 <= len d
  | FErr e d' pos' _ => exists ev, f_poke_copied pl env d pos = FErr e d' pos' ev
  end.
Proof.
  intros pl env d pos. unfold f_text_poke, f_poke_copied, f_poke_raw. rewrite !fbind_assoc.
  assert (U : forall n env l pos, 0 < n ->
    match f_uint pl n env l pos with
    | FOk _ l' _ _ => l' = drop n l /\ n <= len l
    | FErr _ _ _ _ => True
    end).
  { intros n e l q Hn. unfold f_uint, fbind, f_take. destruct l as [|y l]; [exact I|].
    destruct (N.ltb_spec (len (y :: l)) n); [exact I|]. cbn [fcfg fret]. now split. }
  unfold fbind. pose proof (U 8 env d pos eq_refl) as U1.
  destruct (f_uint pl 8 env d pos) as [addr l1 p1 e1|]; [|eauto].
  pose proof (U 2 env l1 p1 eq_refl) as U2. 
  destruct (f_uint pl 2 env l1 p1) as [ol l2 p2 e2|]; [|eauto].
  pose proof (U 2 env l2 p2 eq_refl) as U3.
  destruct (f_uint pl 2 env l2 p2) as [nl l3 p3 e3|]; [|eauto].
  destruct U1 as [-> U1], U2 as [-> U2], U3 as [-> U3]. rewrite !drop_drop in *. rewrite !len_drop in *.
  change (8 + (2 + 2)) with 12 in *. cbv zeta. set (full := round_up_mod (ol + nl) 4 8).
  pose proof (round_up_bound (ol + nl)) as B. fold full in B.
  unfold f_take. destruct (drop 12 d) as [|y t] eqn:Ed; [eexists; reflexivity|]. rewrite <- Ed. clear y t Ed.
  destruct (N.ltb_spec (len (drop 12 d)) full) as [Hl|Hl]; [eexists; reflexivity|]. rewrite len_drop in Hl.
  assert (L1 : len (take ol (take full (drop 12 d))) = ol) by (rewrite !len_take, len_drop; lia).
  assert (L2 : len (take nl (drop ol (take full (drop 12 d)))) = nl).
  { rewrite len_take, len_drop, len_take, len_drop. lia. }
  unfold f_event, fret. cbn [tp_old tp_new tp_addr]. 
  destruct ((ol =? 0) || (ol =? full)); cbn [fret tp_old tp_new]; rewrite L1, L2; fold full; eexists;
    (split; [|lia]); (f_equal; unfold poke_halves, poke_shown, part_of; cbn [tp_old tp_new tp_addr]).
  all: set (b := take full (drop 12 d)) in *.
  all: assert (Lb : len b = full) by (unfold b; rewrite len_take, len_drop; lia).
  all: destruct (N.eqb_spec ol 0) as [->|H0]; [rewrite take_0; reflexivity|].
  all: destruct (take ol b) as [|y t] eqn:Et; [cbn in L1; lia|]; rewrite <- Et in *; clear y t Et; rewrite L1.
  all: rewrite Lb, (N.eqb_sym full ol); destruct (N.eqb_spec ol full) as [E|E]; [|reflexivity].
  all: replace nl with 0 by lia; rewrite take_0; reflexivity.
Qed.

Definition body_shown (x : body list) (l : list N) : body list :=
  match x with
  | BTextPoke r => BTextPoke (poke_shown r (part_of 20 (round_up_mod (len (tp_old r) + len (tp_new r)) 4 8) l))
  | _ => x
  end.

Lemma body_flat : forall pl t env d pos,
  match f_body pl t env d pos with
  | FOk x d' pos' _ => exists ev y, f_body_copied pl t env d pos = FOk y d' pos' ev /\
      forall pre, len pre = 8 -> forall post, y = body_shown x (pre ++ d ++ post)
  | FErr e d' pos' _ => exists ev, f_body_copied pl t env d pos = FErr e d' pos' ev
  end.
Proof.
  intros pl t env d pos. unfold f_body_copied. destruct (N.eqb_spec t 20) as [->|Ht].
  - change (f_body pl 20) with (r <~ f_text_poke pl ;; fret (BTextPoke r)). unfold fbind.
    pose proof (poke_flat pl env d pos) as P.
    destruct (f_text_poke pl env d pos) as [r d' pos' ev|e d' pos' ev]; destruct P as (ev' & P).
    + destruct P as [P L]. rewrite P. unfold fret. do 2 eexists. split; [reflexivity|].
      intros pre Hp post. cbn [body_shown]. f_equal. f_equal. unfold part_of.
      change 20 with (8 + 12). rewrite <- drop_drop, (drop_app_exact 8) by now symmetry.
      rewrite drop_app_le by lia. rewrite take_app_le; [reflexivity|]. rewrite len_drop. lia.
    + rewrite P. eauto.
  - assert (K : match f_body pl t env d pos with FOk (BTextPoke _) _ _ _ => False | _ => True end).
    { unfold f_body. rewrite (proj2 (N.eqb_neq t 20) Ht).
      repeat match goal with |- context [if ?b then _ else _] => destruct b end;
      unfold fbind; match goal with |- context [match ?f env d pos with _ => _ end] => destruct (f env d pos) end;
        exact I. }
    destruct (f_body pl t env d pos) as [x d' pos' ev|e d' pos' ev]; [|eauto].
    do 2 eexists. split; [reflexivity|]. intros pre Hp post. destruct x; try reflexivity. contradiction.
Qed.

Lemma split_front : forall n env l pos,
  match f_split n env l pos with
  | FOk st l' _ _ => exists post, l = fst st ++ post
  | FErr _ _ _ _ => True
  end.
Proof.
  intros n env l pos. unfold f_split. destruct (n =? 0); [exists l; reflexivity|].
  unfold f_take. destruct l as [|y l]; [exact I|].
  destruct (len (y :: l) <? n); [exact I|]. exists (drop n (y :: l)). cbn [fst]. symmetry. apply take_drop.
Qed.

Lemma metadata_front : forall pl h env l pos,
  match f_metadata_with_header pl h env l pos with
  | FOk (st, _) _ _ _ => exists post, l = fst st ++ post
  | FErr _ _ _ _ => True
  end.
Proof.
  intros pl h env l pos. unfold f_metadata_with_header. destruct (h_size h <? 8); [exact I|].
  unfold fbind at 1. pose proof (split_front (h_size h - 8) env l pos) as G.
  destruct (f_split (h_size h - 8) env l pos) as [st l' pos' ev|]; [|exact I].
  destruct ((h_type h =? 1) || (h_type h =? 9)); [exact G|].
  unfold fbind at 1, fcfg at 1. destruct (h_size h - 8 <? estimate_len (fe_cfg env)); [exact I|].
  unfold f_sub, fbind.
  pose proof (split_front (h_size h - 8 - estimate_len (fe_cfg env)) (mkEnv (fe_cfg env) eof_error) (fst st) (snd st)) as G2.
  destruct (f_split (h_size h - 8 - estimate_len (fe_cfg env)) (mkEnv (fe_cfg env) eof_error) (fst st) (snd st))
    as [st2 l2 pos2 ev2|]; [|exact I].
  destruct (f_sample_id pl (mkEnv (fe_cfg env) eof_error) l2 pos2) as [si l3 pos3 ev3|]; [|exact I].
  cbn [fret fst snd]. destruct G as [post ->], G2 as [post2 ->]. exists (post2 ++ post). apply app_assoc_reverse.
Qed.

Lemma record_flat : forall pl env l,
  match f_record pl env l 0 with
  | FOk (x, md) l' n _ => exists ev, f_record_copied pl env l 0 = FOk (body_shown x l, md) l' n ev
  | FErr e l' n _ => exists ev, f_record_copied pl env l 0 = FErr e l' n ev
  end.
Proof.
  intros pl env l. unfold f_record, f_record_copied, f_record_with_header, f_record_with_header_copied.
  unfold fbind.
  assert (Hh : match f_header pl env l 0 with
    | FOk _ l' _ _ => exists pre, len pre = 8 /\ l = pre ++ l' | FErr _ _ _ _ => True end).
  { unfold f_header, f_uint, fbind, f_take. destruct l as [|y l]; [exact I|]. set (z := y :: l).
    destruct (N.ltb_spec (len z) 4) as [|H4]; [exact I|]. cbn [fcfg fret].
    destruct (drop 4 z) as [|y2 l2] eqn:E4; [exact I|]. rewrite <- E4. clear y2 l2 E4.
    rewrite len_drop. destruct (N.ltb_spec (len z - 4) 2) as [|H2]; [exact I|].
    destruct (drop 2 (drop 4 z)) as [|y2 l2] eqn:E4; [exact I|]. rewrite <- E4. clear y2 l2 E4.
    rewrite !drop_drop, !len_drop. destruct (N.ltb_spec (len z - (4 + 2)) 2) as [|H3]; [exact I|].
    exists (take (4 + (2 + 2)) z). rewrite take_drop. split; [|reflexivity].
    rewrite len_take. lia. }
  destruct (f_header pl env l 0) as [h l1 p1 e1|]; [|eexists; reflexivity].
  destruct Hh as (pre & Hp & ->).
  unfold fcfg. pose proof (metadata_front pl h env l1 p1) as M.
  destruct (f_metadata_with_header pl h env l1 p1) as [[st md] l2 p2 e2|]; [|eexists; reflexivity].
  destruct M as (post & ->). unfold f_sub. cbn [fst snd].
  pose proof (body_flat pl (h_type h) (mkEnv (with_misc (fe_cfg env) (h_misc h)) eof_error) (fst st) (snd st)) as B.
  destruct (f_body pl (h_type h) (mkEnv (with_misc (fe_cfg env) (h_misc h)) eof_error) (fst st) (snd st)).
  - destruct B as (ev' & y & -> & Hy). cbn [fret]. rewrite (Hy pre Hp post). eexists. reflexivity.
  - destruct B as (ev' & ->). eexists. reflexivity.
Qed.

(** ** C65: whatever the bytes are, a source that never lends memory gives a record, and takes
    [n] bytes, if and only if those bytes are laid out as that record; TEXT_POKE records are
    shown as [body_shown] says. *)
Theorem C65_reader :
  forall pl S (PB : parsebuf S) fin cap mem w p l a v md n,
  let o := order_of pl (c_endian (p_cfg p)) in
  pl_ok pl -> configured (p_cfg p) w -> ws_regs_user w < 2 ^ 64 -> ws_regs_intr w < 2 ^ 64 ->
  source PB NoExt fin cap mem p l a ->
  ((exists b p', gives pl PB p (inr (b, md)) p' /\ view_body b = v /\
                 moved PB NoExt fin cap mem l a p n p') <->
   (n <= len l /\ exists m si b, v = body_shown (expected b) l /\ md = mkMeta (w_type b) m si /\
                  is_record (pl_bits pl) (pl_host pl) o w m si b (take n l))).
Proof.
  intros pl S PB fin cap mem w p l a v md n o Hpl Hw Hu Hi Hs.
  pose proof (gives_copied pl S PB fin cap mem p l a Hpl Hs) as G.
  pose proof (record_flat pl (mkEnv (p_cfg p) fin) l) as F.
  assert (Hb : bytes l) by (destruct Hs as (? & _ & _ & Hwf); apply Hwf).
  split.
  - intros (b & p' & H1 & H2 & H3).
    pose proof (Snd_record pl Hpl (mkEnv (p_cfg p) fin) (len l) w Hw Hu Hi l 0) as Sd.
    destruct (f_record pl (mkEnv (p_cfg p) fin) l 0) as [[v' md'] l' k ev|e l' k ev]; destruct F as (ev' & F);
      rewrite F in G.
    + destruct G as (b' & p'' & G1 & G2 & G3).
      destruct (gives_once _ _ _ _ _ _ _ _ H1 G1) as [E1 E2]. injection E1 as <- <-. subst p'' v.
      destruct (Sd _ _ _ _ Hb (N.le_refl _) eq_refl) as (bs & El & Ek & m & si & wb & Er & Hr).
      rewrite N.add_0_l in Ek. injection Er as E3 E4. subst v'.
      assert (n = len bs) by (destruct H3 as (_ & _ & _ & H3), G3 as (_ & _ & _ & G3); lia).
      split; [apply H3|]. exists m, si, wb. repeat split; try assumption.
      subst n l. now rewrite take_app_exact by reflexivity.
    + destruct G as (p'' & G1 & _). destruct (gives_once _ _ _ _ _ _ _ _ H1 G1) as [E1 _]. discriminate.
  - intros (Hn & m & si & b & -> & -> & Hr).
    assert (El : l = take n l ++ drop n l) by (symmetry; apply take_drop).
    destruct (record_here pl (mkEnv (p_cfg p) fin) w l m si b (take n l) (drop n l)) as (ev & E); try assumption.
    { unfold bytes in *. rewrite El in Hb. apply Forall_app in Hb. apply Hb. }
    rewrite E in F. destruct F as (ev' & F). rewrite F in G. destruct G as (bc & p' & G). exists bc, p'.
    rewrite len_take, N.min_l in G by exact Hn. exact G.
Qed.

(** ** C67: and every other byte string gets the error of the first part that fails. *)
Theorem C67_reader :
  forall pl S (PB : parsebuf S) fin cap mem w p l a e,
  let o := order_of pl (c_endian (p_cfg p)) in
  pl_ok pl -> configured (p_cfg p) w -> ws_regs_user w < 2 ^ 64 -> ws_regs_intr w < 2 ^ 64 ->
  source PB NoExt fin cap mem p l a ->
  ((exists p', gives pl PB p (inl e) p') <-> record_part (pl_bits pl) (pl_host pl) o w fin l = Fault e).
Proof.
  intros pl S PB fin cap mem w p l a e o Hpl Hw Hu Hi Hs.
  pose proof (gives_copied pl S PB fin cap mem p l a Hpl Hs) as G.
  pose proof (record_flat pl (mkEnv (p_cfg p) fin) l) as F.
  assert (Hb : bytes l) by (destruct Hs as (? & _ & _ & Hwf); apply Hwf).
  pose proof (Lex_record pl Hpl (mkEnv (p_cfg p) fin) w Hw Hu Hi l 0 Hb) as X. cbn [fe_fin fe_cfg] in X. fold o in X.
  destruct (f_record pl (mkEnv (p_cfg p) fin) l 0) as [[v md] l' k ev|e' l' k ev]; destruct F as (ev' & F);
    rewrite F in G.
  - destruct X as (_ & n & -> & _). destruct G as (b & p' & G & _). split; [|discriminate].
    intros (p'' & H). destruct (gives_once _ _ _ _ _ _ _ _ G H) as [E _]. discriminate E.
  - rewrite X. destruct G as (p' & G & _). split.
    + intros (p'' & H). destruct (gives_once _ _ _ _ _ _ _ _ G H) as [E _]. now injection E as <-.
    + intros E. injection E as <-. now exists p'.
Qed.

(** A TEXT_POKE record with nothing old and three new bytes, padded with a 9: the reader shows
    all four bytes as old.  One which is cut short gets the error of the source. *)
Definition new_poke : list N := w_header LE 20 0 24 ++ w64 LE 4096 ++ w16 LE 0 ++ w16 LE 3 ++ [4; 5; 6; 9].
Definition new_poke_body : wbody := WTextPoke (mkTextPoke 4096 [] [4; 5; 6]).

Example C65_reader_example :
  configured ex_cfg0 ex_set0 /\
  (forall cap mem, 16384 <= cap ->
     source bufreader_buf NoExt eof_error cap mem (reader_of [new_poke] ex_cfg0) new_poke 0) /\
  is_record 64 LE LE ex_set0 0 sample_id_default new_poke_body new_poke /\
  body_shown (expected new_poke_body) new_poke = BTextPoke (mkTextPoke 4096 [4; 5; 6; 9] []) /\
  exists p', gives pl64 bufreader_buf (reader_of [new_poke] ex_cfg0)
    (inr (BTextPoke (mkTextPoke 4096 (Owned [4; 5; 6; 9]) (Borrowed 0 [])), mkMeta 20 0 sample_id_default)) p'.
Proof.
  split; [repeat split|]. split.
  { intros cap mem Hc. apply (reader_source [] [new_poke] None); [exact Hc| | |]; try (vm_compute; congruence);
    repeat constructor; discriminate. }
  split.
  { exists (w64 LE 4096 ++ w16 LE 0 ++ w16 LE 3 ++ [4; 5; 6; 9]), [], [].
    cbv zeta. split; [reflexivity|]. split; [reflexivity|]. split; [reflexivity|].
    split; [now repeat split|]. split.
    { exists (w64 LE 4096 ++ w16 LE 0 ++ w16 LE 3 ++ [4; 5; 6; 9]), []. split; [reflexivity|].
      split; [cbv; repeat (constructor; [first [left; reflexivity|right; reflexivity]|]); constructor|].
      split; [discriminate|reflexivity]. }
    split; [contradiction|]. split; [|constructor]. cbn. repeat split. }
  split; [vm_compute; reflexivity|].
  eexists. apply collect_gives. vm_compute. reflexivity.
Qed.

Example C67_reader_example : forall cap mem, 16384 <= cap ->
  let l := take 23 new_poke in
  source bufreader_buf NoExt eof_error cap mem (reader_of [l] ex_cfg0) l 0 /\
  record_part 64 LE LE ex_set0 eof_error l = Fault eof_error /\
  exists p', gives pl64 bufreader_buf (reader_of [l] ex_cfg0) (inl eof_error) p'.
Proof.
  intros cap mem Hc. cbv zeta. split.
  { apply (reader_source [] [take 23 new_poke] None); [exact Hc| | |]; try (vm_compute; congruence);
    vm_compute; repeat constructor; discriminate. }
  split; [vm_compute; reflexivity|].
  eexists. intros O V. rewrite record_eq. vm_compute. reflexivity.
Qed.

(** ** Memory at unaligned addresses: an array in the byte order of the host is read from behind
    itself, so C65 and C67 do not hold there. *)
Definition here_cfg : config := mkConfig 0 0 0 Native.
Definition here_set : settings := mkSettings 0 0 false false 0 0.
Definition two_ns : list N :=
  w_header LE 16 0 56 ++ w32 LE 5 ++ w32 LE 6 ++ w64 LE 1 ++ w64 LE 77 ++ w64 LE 88 ++ w64 LE 99 ++ w64 LE 111.

Lemma here_source : forall a l, bytes l -> len l <= 100 ->
  source slice_buf Whole eof_error 100 (memory_of a l) (on_slice a l here_cfg) l a.
Proof.
  intros a l Hb Hl. apply slice_source; [exact Hb|lia|exact Hl|apply memory_of_at].
Qed.

Lemma here_tame : forall l, from_order LE (take 4 l) = 16 -> tame pl64 here_cfg Whole 4096 l.
Proof.
  intros l H. unfold tame. cbv zeta. change (order_of pl64 (c_endian here_cfg)) with LE. rewrite H.
  split; [discriminate|]. right. right. right. split; [now left|]. split; [reflexivity|discriminate].
Qed.

(** A record with one namespace and bytes nobody asked for is read as another, which the bytes
    are not. *)
Theorem C65_memory_refuted : exists v md p',
  let n := len two_ns in
  source slice_buf Whole eof_error 100 (memory_of 4097 two_ns) (on_slice 4097 two_ns here_cfg) two_ns 4097 /\
  configured here_cfg here_set /\
  (exists b, gives pl64 slice_buf (on_slice 4097 two_ns here_cfg) (inr (b, md)) p' /\ view_body b = v /\
     moved slice_buf Whole eof_error 100 (memory_of 4097 two_ns) two_ns 4097 (on_slice 4097 two_ns here_cfg) n p') /\
  ~ (exists m si b, v = expected b /\ md = mkMeta (w_type b) m si /\
       is_record 64 LE LE here_set m si b (take n two_ns)).
Proof.
  assert (Hb : bytes two_ns) by (vm_compute; repeat constructor).
  pose proof (gives_whole pl64 _ slice_buf eof_error 100 (memory_of 4097 two_ns) (on_slice 4097 two_ns here_cfg)
                two_ns 4097 4097 (or_intror eq_refl) (here_source 4097 two_ns Hb ltac:(vm_compute; congruence)) eq_refl) as G.
  change (p_cfg (on_slice 4097 two_ns here_cfg)) with here_cfg in G.
  assert (E : g_record pl64 (bad_at pl64 4097) (mkEnv here_cfg eof_error) two_ns 0 =
    FOk (BNamespaces (mkNamespaces 5 6 [mkNs 99 111]), mkMeta 16 0 sample_id_default) [] (len two_ns) [])
    by (vm_compute; reflexivity).
  rewrite E in G. clear E. destruct G as (bc & p' & G1 & G2 & G3).
  exists (view_body bc), (mkMeta 16 0 sample_id_default), p'. cbv zeta.
  split; [apply here_source; [exact Hb|vm_compute; congruence]|].
  split; [repeat split|]. split; [exists bc; split; [exact G1|split; [reflexivity|exact G3]]|].
  rewrite G2. intros H.
  destruct (proj2 (C65_record_partial pl64 _ slice_buf Whole eof_error 100 (memory_of 4096 two_ns) here_set
              (on_slice 4096 two_ns here_cfg) two_ns 4096 _ _ (len two_ns) (or_intror eq_refl) ltac:(repeat split)
              eq_refl eq_refl (here_source 4096 two_ns Hb ltac:(vm_compute; congruence))
              (here_tame two_ns eq_refl)) (conj (N.le_refl _) H)) as (b & q & A & B & _).
  assert (K : exists b' q', gives pl64 slice_buf (on_slice 4096 two_ns here_cfg)
            (inr (b', mkMeta 16 0 sample_id_default)) q' /\
          view_body b' = BNamespaces (mkNamespaces 5 6 [mkNs 77 88])).
  { eexists. eexists. split; [apply collect_gives; vm_compute; reflexivity|reflexivity]. }
  destruct K as (b' & q' & K & Kv). destruct (gives_once _ _ _ _ _ _ _ _ A K) as [Q _].
  injection Q as ->. rewrite Kv in B. discriminate B.
Qed.

(** A complete record is refused for want of data. *)
Theorem C67_memory_refuted :
  source slice_buf Whole eof_error 100 (memory_of 4097 ns_bytes) (on_slice 4097 ns_bytes here_cfg) ns_bytes 4097 /\
  configured here_cfg here_set /\
  (exists p', gives pl64 slice_buf (on_slice 4097 ns_bytes here_cfg) (inl eof_error) p') /\
  record_part 64 LE LE here_set eof_error ns_bytes <> Fault eof_error.
Proof.
  assert (Hb : bytes ns_bytes) by (vm_compute; repeat constructor).
  split; [apply here_source; [exact Hb|vm_compute; congruence]|]. split; [repeat split|].
  split; [|vm_compute; discriminate].
  pose proof (gives_whole pl64 _ slice_buf eof_error 100 (memory_of 4097 ns_bytes) (on_slice 4097 ns_bytes here_cfg)
                ns_bytes 4097 4097 (or_intror eq_refl) (here_source 4097 ns_bytes Hb ltac:(vm_compute; congruence)) eq_refl) as G.
  change (p_cfg (on_slice 4097 ns_bytes here_cfg)) with here_cfg in G.
  assert (E : exists l k, g_record pl64 (bad_at pl64 4097) (mkEnv here_cfg eof_error) ns_bytes 0 = FErr eof_error l k [])
    by (vm_compute; do 2 eexists; reflexivity).
  destruct E as (l & k & E). rewrite E in G. destruct G as (p' & G & _). exists p'. exact G.
Qed.

(** So what C63 says is read back need not be: everything it asks for is there. *)
Theorem C63_memory_refuted :
  let b := WNamespaces (mkNamespaces 5 6 [mkNs 77 88]) in
  let l := w_record LE here_set 0 sample_id_default b in
  source slice_buf Whole eof_error 100 (memory_of 4097 l) (on_slice 4097 l here_cfg) l 4097 /\
  configured here_cfg here_set /\ wbody_ok here_set 0 b /\ sample_id_ok here_set sample_id_default /\
  record_readable Whole LE LE here_set sample_id_default b /\
  fst (parse_record_enum pl64 slice_buf (on_slice 4097 l here_cfg)) = Err eof_error.
Proof.
  cbv zeta. split; [apply here_source; vm_compute; [repeat constructor|congruence]|].
  split; [repeat split|]. split.
  { split; [reflexivity|]. split; [reflexivity|]. constructor; [split; reflexivity|constructor]. }
  split; [repeat split|]. split; [intros _; discriminate|vm_compute; reflexivity].
Qed.

Print Assumptions C65_reader.
Print Assumptions C67_reader.
Print Assumptions C65_memory_refuted.
Print Assumptions C67_memory_refuted.
Print Assumptions C63_memory_refuted.
