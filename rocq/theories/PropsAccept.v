(** Theorems: exactly which byte strings are read as records, and as which (C65). *)
From Coq Require Import NArith List Bool Lia.
From Verif Require Import Base BaseFacts Types Platform Config Buf Parser Contract Flat Refine.
From Verif Require Import Instances Prims Slices Records Sample Record Attr Views RefRecords.
From Verif Require Import RefFrame RefTop Wire Codec Roundtrip ConfFacts Spec SameFacts.
From Verif Require Import WireAttr AttrFacts Accept AcceptFacts AcceptRecord AcceptAttr ExData.
From Verif Require Import AcceptSample RoundFacts FrameFacts PropsFrame PropsSame PropsBorrow PropsAttr.
Import ListNotations.
Open Scope N_scope.

(** A visitor which keeps what it is shown. *)
Definition keep_visitor : visitor (body cow * metadata) :=
  let k {A : Type} (f : A -> body cow) := Some (fun r md => Ok (f r, md)) in
  mkVisitor (fun md => Ok (BSwitch, md)) (k BMmap) (k BLost) (k BComm) (k BExit) (k BThrottle)
    (k BUnthrottle) (k BFork) (k BRead) (k BSample) (k BMmap2) (k BAux) (k BItraceStart)
    (k BLostSamples) (Some (fun md => Ok (BSwitch, md))) (k BSwitchCpuWide) (k BNamespaces)
    (k BKsymbol) (k BBpfEvent) (k BCgroup) (k BTextPoke) (k BAuxOutputHwId) (k BUnknown).

Lemma keep_answer : forall b md, answer keep_visitor b md = Ok (b, md).
Proof. intros [] md; reflexivity. Qed.

Lemma gives_once : forall pl S (PB : parsebuf S) p r1 p1 r2 p2,
  gives pl PB p r1 p1 -> gives pl PB p r2 p2 -> r1 = r2 /\ p1 = p2.
Proof.
  intros pl S PB p r1 p1 r2 p2 H1 H2. specialize (H1 _ keep_visitor). specialize (H2 _ keep_visitor).
  rewrite H1 in H2. destruct r1 as [e1|[b1 m1]], r2 as [e2|[b2 m2]]; rewrite ?keep_answer in H2;
    injection H2; intros; subst; now split.
Qed.

Lemma record_here : forall pl env w l m si b bs rest,
  let o := order_of pl (c_endian (fe_cfg env)) in
  pl_ok pl -> configured (fe_cfg env) w -> ws_regs_user w < 2 ^ 64 -> ws_regs_intr w < 2 ^ 64 ->
  bytes bs -> l = bs ++ rest -> is_record (pl_bits pl) (pl_host pl) o w m si b bs ->
  exists ev, f_record pl env l 0 = FOk (expected b, mkMeta (w_type b) m si) rest (len bs) ev.
Proof.
  intros pl env w l m si b bs rest o Hpl Hw Hu Hi Hb -> H.
  exact (Runs_record pl Hpl env w Hw Hu Hi m si b bs rest 0 Hb H).
Qed.

(** ** C65: the parser gives a record and takes [n] bytes if and only if those bytes are
    laid out as that record. *)
(** Full statement: without [tame]; see C65_reader and C65_memory_refuted (PropsReader.v). *)
Theorem C65_record_partial :
  forall pl S (PB : parsebuf S) mo fin cap mem w p l a v md n,
  let o := order_of pl (c_endian (p_cfg p)) in
  pl_ok pl -> configured (p_cfg p) w -> ws_regs_user w < 2 ^ 64 -> ws_regs_intr w < 2 ^ 64 ->
  source PB mo fin cap mem p l a -> tame pl (p_cfg p) mo a l ->
  ((exists b p', gives pl PB p (inr (b, md)) p' /\ view_body b = v /\
                 moved PB mo fin cap mem l a p n p') <->
   (n <= len l /\ exists m si b, v = expected b /\ md = mkMeta (w_type b) m si /\
                  is_record (pl_bits pl) (pl_host pl) o w m si b (take n l))).
Proof.
  intros pl S PB mo fin cap mem w p l a v md n o Hpl Hw Hu Hi Hs Ht.
  pose proof (gives_flat pl S PB mo fin cap mem p l a Hpl Hs Ht) as G.
  assert (Hb : bytes l) by (destruct Hs as (? & _ & _ & Hwf); apply Hwf).
  split.
  - intros (b & p' & H1 & H2 & H3).
    pose proof (Snd_record pl Hpl (mkEnv (p_cfg p) fin) (len l) w Hw Hu Hi l 0) as Sd.
    destruct (f_record pl (mkEnv (p_cfg p) fin) l 0) as [[v' md'] l' k ev|e l' k ev].
    + destruct G as (b' & p'' & G1 & G2 & G3).
      destruct (gives_once _ _ _ _ _ _ _ _ H1 G1) as [E1 E2]. injection E1 as <- <-. subst p'' v v'.
      destruct (Sd _ _ _ _ Hb (N.le_refl _) eq_refl) as (bs & El & Ek & m & si & wb & Er & Hr).
      rewrite N.add_0_l in Ek. injection Er as E3 E4.
      assert (n = len bs) by (destruct H3 as (_ & _ & _ & H3), G3 as (_ & _ & _ & G3); lia).
      split; [apply H3|]. exists m, si, wb. repeat split; try assumption.
      subst n l. now rewrite take_app_exact by reflexivity.
    + destruct G as (p'' & G1 & _). destruct (gives_once _ _ _ _ _ _ _ _ H1 G1) as [E1 _]. discriminate.
  - intros (Hn & m & si & b & -> & -> & Hr).
    assert (El : l = take n l ++ drop n l) by (symmetry; apply take_drop).
    destruct (record_here pl (mkEnv (p_cfg p) fin) w l m si b (take n l) (drop n l)) as (ev & E); try assumption.
    { unfold bytes in *. rewrite El in Hb. apply Forall_app in Hb. apply Hb. }
    rewrite E in G. destruct G as (bc & p' & G). exists bc, p'.
    rewrite len_take, N.min_l in G by exact Hn. exact G.
Qed.

(** Everything else is refused. *)
(** Full statement: without [tame]. *)
Theorem C65_refused_partial :
  forall pl S (PB : parsebuf S) mo fin cap mem w p l a,
  let o := order_of pl (c_endian (p_cfg p)) in
  pl_ok pl -> configured (p_cfg p) w -> ws_regs_user w < 2 ^ 64 -> ws_regs_intr w < 2 ^ 64 ->
  source PB mo fin cap mem p l a -> tame pl (p_cfg p) mo a l ->
  ((exists e p', gives pl PB p (inl e) p') <->
   (forall n m si b, n <= len l -> ~ is_record (pl_bits pl) (pl_host pl) o w m si b (take n l))).
Proof.
  intros pl S PB mo fin cap mem w p l a o Hpl Hw Hu Hi Hs Ht. split.
  - intros (e & p' & G) n m si b Hn Hr.
    destruct (proj2 (C65_record_partial pl S PB mo fin cap mem w p l a (expected b) (mkMeta (w_type b) m si) n
                       Hpl Hw Hu Hi Hs Ht)) as (bc & p'' & G' & _).
    { split; [exact Hn|]. now exists m, si, b. }
    destruct (gives_once _ _ _ _ _ _ _ _ G G') as [E _]. discriminate.
  - intros H. pose proof (gives_flat pl S PB mo fin cap mem p l a Hpl Hs Ht) as G.
    destruct (f_record pl (mkEnv (p_cfg p) fin) l 0) as [[v md] l' n ev|e l' n ev].
    + exfalso. destruct G as (bc & p' & G1 & G2 & G3).
      destruct (proj1 (C65_record_partial pl S PB mo fin cap mem w p l a v md n Hpl Hw Hu Hi Hs Ht))
        as (Hn & m & si & b & _ & _ & Hr); [now exists bc, p'|].
      exact (H _ _ _ _ Hn Hr).
    + destruct G as (p' & G & _). now exists e, p'.
Qed.

(** No byte string begins with two different records: where a record ends and what it says
    is in its bytes. *)
Theorem C65_one_reading :
  forall pl e w m si b m' si' b' bs bs' rest rest',
  let o := order_of pl e in
  pl_ok pl -> ws_regs_user w < 2 ^ 64 -> ws_regs_intr w < 2 ^ 64 ->
  (exists c, configured c w /\ c_endian c = e) ->
  bytes bs -> bytes bs' -> bs ++ rest = bs' ++ rest' ->
  is_record (pl_bits pl) (pl_host pl) o w m si b bs ->
  is_record (pl_bits pl) (pl_host pl) o w m' si' b' bs' ->
  bs = bs' /\ m = m' /\ si = si' /\ w_type b = w_type b' /\ expected b = expected b'.
Proof.
  intros pl e w m si b m' si' b' bs bs' rest rest' o Hpl Hu Hi (c & Hw & He) Hb Hb' E H H'.
  subst e. subst o.
  destruct (record_here pl (mkEnv c eof_error) w (bs ++ rest) m si b bs rest Hpl Hw Hu Hi Hb eq_refl H) as (ev & R).
  destruct (record_here pl (mkEnv c eof_error) w (bs ++ rest) m' si' b' bs' rest' Hpl Hw Hu Hi Hb' E H') as (ev' & R').
  rewrite R in R'. injection R' as E1 E2 E3 E4 E5 E6 _. subst.
  repeat split; try assumption. now apply app_inv_tail in E.
Qed.

(** Several records, one after the other. *)
Inductive gives_all (pl : platform) {S : Type} (PB : parsebuf S) :
  parser S -> list (body cow * metadata) -> parser S -> Prop :=
| gives_none : forall p, gives_all pl PB p [] p
| gives_more : forall p x p1 xs p2, gives pl PB p (inr x) p1 -> gives_all pl PB p1 xs p2 ->
    gives_all pl PB p (x :: xs) p2.

Inductive are_records (bits : N) (host o : order) (w : settings) :
  list (body list * metadata) -> list N -> Prop :=
| no_record : are_records bits host o w [] []
| one_record : forall m si b vs b1 b2, is_record bits host o w m si b b1 ->
    are_records bits host o w vs b2 ->
    are_records bits host o w ((expected b, mkMeta (w_type b) m si) :: vs) (b1 ++ b2).

Lemma moved_trans : forall S (PB : parsebuf S) mo fin cap mem l a p n p1 k p2,
  moved PB mo fin cap mem l a p n p1 -> moved PB mo fin cap mem (drop n l) (a + n) p1 k p2 ->
  moved PB mo fin cap mem l a p (n + k) p2.
Proof.
  intros S PB mo fin cap mem l a p n p1 k p2 (H1 & H2 & H3 & H4) (K1 & K2 & K3 & K4).
  rewrite len_drop in K1. rewrite drop_drop in K2. rewrite <- N.add_assoc in K2.
  split; [lia|]. split; [exact K2|]. split; [congruence|lia].
Qed.

Definition seen (x : body cow * metadata) : body list * metadata := (view_body (fst x), snd x).

(** Wherever one of the records of [l] may begin. *)
Definition tame_all (pl : platform) (w : settings) (c : config) (mo : mode) (a : N) (l : list N) : Prop :=
  forall k us, k <= len l ->
    are_records (pl_bits pl) (pl_host pl) (order_of pl (c_endian c)) w us (take k l) ->
    tame pl c mo (a + k) (drop k l).

Lemma tame_all_here : forall pl w c mo a l, tame_all pl w c mo a l -> tame pl c mo a l.
Proof.
  intros pl w c mo a l H. rewrite <- (N.add_0_r a), <- (drop_0 l).
  apply (H 0 []); [apply N.le_0_l|]. rewrite take_0. constructor.
Qed.

Lemma tame_all_next : forall pl w c mo a l m si b k,
  tame_all pl w c mo a l -> k <= len l ->
  is_record (pl_bits pl) (pl_host pl) (order_of pl (c_endian c)) w m si b (take k l) ->
  tame_all pl w c mo (a + k) (drop k l).
Proof.
  intros pl w c mo a l m si b k H Hk Hr j us Hj Ha. rewrite drop_drop, <- N.add_assoc.
  rewrite len_drop in Hj. eapply H; [lia|]. rewrite take_plus. constructor; eassumption.
Qed.

(** Full statement: without [tame_all]. *)
Theorem C65_stream_partial :
  forall pl S (PB : parsebuf S) mo fin cap mem w p l a vs n,
  let o := order_of pl (c_endian (p_cfg p)) in
  pl_ok pl -> configured (p_cfg p) w -> ws_regs_user w < 2 ^ 64 -> ws_regs_intr w < 2 ^ 64 ->
  source PB mo fin cap mem p l a -> tame_all pl w (p_cfg p) mo a l ->
  ((exists xs p', gives_all pl PB p xs p' /\ map seen xs = vs /\ moved PB mo fin cap mem l a p n p') <->
   (n <= len l /\ are_records (pl_bits pl) (pl_host pl) o w vs (take n l))).
Proof.
  intros pl S PB mo fin cap mem w p l a vs n o Hpl Hw Hu Hi Hs Ht. split.
  - intros (xs & p' & G & Hx & Hm). subst vs.
    cut (exists k, moved PB mo fin cap mem l a p k p' /\
           are_records (pl_bits pl) (pl_host pl) o w (map seen xs) (take k l)).
    { intros (k & M & A). assert (n = k) by (destruct M as (_ & _ & _ & M), Hm as (_ & _ & _ & Hm); lia).
      subst k. split; [apply M|exact A]. }
    clear n Hm. subst o. revert l a Hw Hs Ht.
    induction G as [p|p x p1 xs p2 G1 G2 IH]; intros l a Hw Hs Ht.
    + exists 0. split; [|rewrite take_0; constructor].
      split; [apply N.le_0_l|]. rewrite drop_0, N.add_0_r. split; [exact Hs|]. split; [reflexivity|lia].
    + pose proof (tame_all_here _ _ _ _ _ _ Ht) as T0.
      pose proof (gives_flat pl S PB mo fin cap mem p l a Hpl Hs T0) as Gf.
      destruct x as [bc md].
      assert (M1 : exists k, moved PB mo fin cap mem l a p k p1).
      { destruct (f_record pl (mkEnv (p_cfg p) fin) l 0) as [[v' md'] l' k ev|e l' k ev].
        - destruct Gf as (b' & p'' & F1 & _ & F3). destruct (gives_once _ _ _ _ _ _ _ _ G1 F1) as [_ <-]. eauto.
        - destruct Gf as (p'' & F1 & F3). destruct (gives_once _ _ _ _ _ _ _ _ G1 F1) as [_ <-]. eauto. }
      destruct M1 as (k & M1).
      destruct (proj1 (C65_record_partial pl S PB mo fin cap mem w p l a (view_body bc) md k Hpl Hw Hu Hi Hs T0))
        as (Hk & m & si & b & Eb & Em & Hr); [now exists bc, p1|].
      pose proof M1 as (_ & Hs1 & Ec & _).
      pose proof (tame_all_next _ _ _ _ _ _ _ _ _ _ Ht Hk Hr) as T1. rewrite <- Ec in T1.
      assert (Hw1 : configured (p_cfg p1) w) by (rewrite Ec; exact Hw).
      destruct (IH _ _ Hw1 Hs1 T1) as (j & M2 & A2).
      exists (k + j). split; [exact (moved_trans _ _ _ _ _ _ _ _ _ _ _ _ _ M1 M2)|].
      rewrite take_plus. cbn [map]. unfold seen at 1. cbn [fst snd]. rewrite Eb, Em.
      constructor; [exact Hr|]. rewrite Ec in A2. exact A2.
  - intros (Hn & A). remember (take n l) as bs eqn:Eb. remember o as o' eqn:Eo.
    revert n p l a o Hw Hs Ht Hn Eb Eo.
    induction A as [|m si b vs b1 b2 Hr A IH]; intros n p l a o Hw Hs Ht Hn Eb Eo.
    + assert (n = 0).
      { apply (f_equal len) in Eb. rewrite len_take in Eb. change (len (@nil N)) with 0 in Eb. lia. }
      subst n. exists [], p. split; [constructor|]. split; [reflexivity|].
      split; [apply N.le_0_l|]. rewrite drop_0, N.add_0_r. split; [exact Hs|]. split; [reflexivity|lia].
    + pose proof (tame_all_here _ _ _ _ _ _ Ht) as T0.
      assert (E1 : take (len b1) l = b1).
      { apply (f_equal (take (len b1))) in Eb. rewrite take_app_exact, take_take in Eb by reflexivity.
        rewrite Eb at 2. f_equal. apply (f_equal len) in Eb. rewrite len_take in Eb. lia. }
      assert (Hl : len b1 + len b2 = n).
      { apply (f_equal len) in Eb. rewrite len_app, len_take in Eb. lia. }
      assert (E2 : b2 = take (len b2) (drop (len b1) l)).
      { subst n. rewrite take_plus, E1 in Eb. now apply app_inv_head in Eb. }
      assert (Hk : len b1 <= len l) by lia.
      subst o' o. rewrite <- E1 in Hr.
      destruct (proj2 (C65_record_partial pl S PB mo fin cap mem w p l a (expected b) (mkMeta (w_type b) m si)
                         (len b1) Hpl Hw Hu Hi Hs T0)) as (bc & p1 & G1 & V1 & M1).
      { split; [exact Hk|]. now exists m, si, b. }
      pose proof M1 as (_ & Hs1 & Ec & _).
      pose proof (tame_all_next _ _ _ _ _ _ _ _ _ _ Ht Hk Hr) as T1. rewrite <- Ec in T1.
      assert (Hw1 : configured (p_cfg p1) w) by (rewrite Ec; exact Hw).
      destruct (IH (len b2) p1 (drop (len b1) l) (a + len b1) Hw1 Hs1 T1) as (xs & p2 & G2 & X2 & M2).
      { rewrite len_drop. lia. }
      { exact E2. }
      { now rewrite Ec. }
      exists ((bc, mkMeta (w_type b) m si) :: xs), p2. split; [econstructor; eassumption|].
      split; [cbn [map]; unfold seen at 1; cbn [fst snd]; now rewrite V1, X2|].
      subst n. exact (moved_trans _ _ _ _ _ _ _ _ _ _ _ _ _ M1 M2).
Qed.

(** A LOST record whose body is followed by three bytes nobody looks at, before the
    sample_id with a word of padding after the CPU; read in pieces. *)
Definition odd_cfg : config := mkConfig (cf_new 0 (2 ^ 7) true false 0) 0 0 Little.
Definition odd_set : settings := mkSettings (2 ^ 7) 0 true false 0 0.
Definition odd_id : sample_id := mkSampleId None None None None None (Some 3).
Definition odd_lost : list N :=
  w_header LE 2 5 35 ++ w64 LE 7 ++ w64 LE 9 ++ [170; 171; 172] ++ w32 LE 3 ++ [1; 2; 3; 4].

Lemma odd_is_lost : is_record 64 LE LE odd_set 5 odd_id (WLost (mkLost 7 9)) odd_lost.
Proof.
  exists (w64 LE 7 ++ w64 LE 9), [170; 171; 172], (w32 LE 3 ++ [1; 2; 3; 4]).
  cbv zeta. split; [reflexivity|]. split; [reflexivity|]. split; [reflexivity|].
  split; [now split|]. split.
  { exists (w64 LE 7 ++ w64 LE 9), []. split; [reflexivity|].
    split; [apply fits_just; reflexivity|]. split; [discriminate|reflexivity]. }
  split; [contradiction|]. split.
  { cbn. repeat split. }
  cbv. repeat (constructor; [first [left; reflexivity|right; reflexivity]|]). constructor.
Qed.

(** Laid out as a record and read as that record. *)
Definition odd_pieces : list (list N) := [firstn 11 odd_lost; skipn 11 odd_lost ++ [9; 9]].

Lemma odd_tame : forall a us, tame_all pl64 us odd_cfg NoExt a (odd_lost ++ [9; 9]).
Proof.
  intros a us k vs Hk _. split; [|right; right; left; reflexivity].
  assert (G : forallb (fun k => negb (from_order LE (take 4 (drop (N.of_nat k) (odd_lost ++ [9; 9]))) =? 20))
                (seq 0 38) = true) by (vm_compute; reflexivity).
  rewrite forallb_forall in G. specialize (G (N.to_nat k)). rewrite N2Nat.id in G.
  intros E. change (order_of pl64 (c_endian odd_cfg)) with LE in E. rewrite E in G.
  discriminate G. apply in_seq. change (len (odd_lost ++ [9; 9])) with 37 in Hk. lia.
Qed.

Example C65_example :
  configured odd_cfg odd_set /\
  (forall cap mem, 16384 <= cap ->
     source bufreader_buf NoExt eof_error cap mem (reader_of odd_pieces odd_cfg) (odd_lost ++ [9; 9]) 0) /\
  tame_all pl64 odd_set odd_cfg NoExt 0 (odd_lost ++ [9; 9]) /\
  are_records 64 LE LE odd_set [(BLost (mkLost 7 9), mkMeta 2 5 odd_id)] odd_lost /\
  exists p', gives pl64 bufreader_buf (reader_of odd_pieces odd_cfg)
    (inr (BLost (mkLost 7 9), mkMeta 2 5 odd_id)) p'.
Proof.
  split; [repeat split|]. split.
  { intros cap mem Hc.
    apply (reader_source [] odd_pieces None); [exact Hc| | |]; try (vm_compute; congruence);
    repeat constructor; discriminate. }
  split; [apply odd_tame|]. split.
  { rewrite <- (app_nil_r odd_lost). apply (one_record 64 LE LE odd_set 5 odd_id (WLost (mkLost 7 9)));
      [exact odd_is_lost|constructor]. }
  eexists. apply collect_gives. vm_compute. reflexivity.
Qed.

(** A record type nobody knows without any bytes is none, whatever follows. *)
Example C65_refused_example :
  exists p', gives pl64 bufreader_buf (reader_of [w_header LE 99 0 8 ++ odd_lost] ex_cfg0)
    (inl eof_error) p'.
Proof.
  eexists. intros O V. rewrite record_eq. vm_compute. reflexivity.
Qed.

(** Samples read on their own.  [lends_plain] is what [tame] asks for a SAMPLE record. *)
Definition lends_plain (pl : platform) (c : config) (mo : mode) (a : N) : Prop :=
  order_of pl (c_endian c) <> pl_host pl \/ mo = NoExt \/
  ((mo = Whole \/ mo = Coh) /\ a mod word_align pl = 0 /\
   contains (sample_type c) SF_STACK_USER && contains (sample_type c) SF_REGS_INTR = false).

Definition owned (pl : platform) (e : event) : Prop :=
  match e with ESlice al _ => al = pl_align pl | EPoke => False end.

Lemma evs_array_owned : forall pl (C : config -> Prop) B (FE : felem B) n,
  evs C (owned pl) (f_array pl FE n).
Proof.
  intros pl C B FE n env l pos _. unfold f_array. cbv zeta.
  destruct (_ && _); [constructor|]. destruct (_ && _); [constructor|].
  destruct (_ <? _); [constructor|]. destruct (_ && _); repeat constructor.
Qed.

Lemma sample_events : forall pl mo a env l, lends_plain pl (fe_cfg env) mo a ->
  match f_sample pl env l 0 with FOk _ _ _ ev | FErr _ _ _ ev => Forall (ev_ok mo a) ev end.
Proof.
  intros pl mo a env l [H|[->|(Hm & Ha & Hs)]].
  - assert (G : evs (fun c => order_of pl (c_endian c) <> pl_host pl) (ev_ok mo a) (f_sample pl)).
    { apply evs_sample. intros B E n. now apply evs_array_foreign. }
    exact (G env l 0 H).
  - assert (G : evs (fun _ => True) (owned pl) (f_sample pl)) by (apply evs_sample; intros; apply evs_array_owned).
    specialize (G env l 0 I).
    destruct (f_sample pl env l 0); (eapply Forall_impl; [|exact G]); intros [al q|] Hq; [exact I|contradiction|exact I|contradiction].
  - assert (G : ale (fun c => sample_type c = sample_type (fe_cfg env)) (f_sample pl)).
    { apply ale_sample. intros c ->. exact Hs. }
    specialize (G env l 0 eq_refl eq_refl).
    assert (G' : evs (fun _ => True) (owned pl) (f_sample pl)) by (apply evs_sample; intros; apply evs_array_owned).
    specialize (G' env l 0 I).
    assert (Q : forall ev, Forall al_ev ev -> Forall (owned pl) ev -> Forall (ev_ok mo a) ev).
    { intros ev G1 G2. rewrite Forall_forall in *. intros v Hv. specialize (G1 v Hv). specialize (G2 v Hv).
      destruct v as [al q|]; [|contradiction]. cbn in G1, G2. subst al.
      destruct Hm as [-> | ->]; cbn [ev_ok]; now apply shift_align. }
    destruct (f_sample pl env l 0); now apply Q.
Qed.

(** Full statement: without [lends_plain]. *)
Theorem C65_sample_partial :
  forall pl S (PB : parsebuf S) mo fin cap mem w p l a v n,
  let o := order_of pl (c_endian (p_cfg p)) in
  pl_ok pl -> configured (p_cfg p) w -> ws_regs_user w < 2 ^ 64 -> ws_regs_intr w < 2 ^ 64 ->
  cap <= isize_max pl -> len l <= usize_max pl ->
  source PB mo fin cap mem p l a -> lends_plain pl (p_cfg p) mo a ->
  ((exists s p', parse_sample pl PB p = (Ok s, p') /\ view_sample s = v /\
                 moved PB mo fin cap mem l a p n p') <->
   (n <= len l /\ exists x, sw_sample x = v /\ sample_given w x /\
      laid (l_sample (pl_bits pl) (pl_host pl) o w x) (take n l) (drop n l))).
Proof.
  intros pl S PB mo fin cap mem w p l a v n o Hpl Hw Hu Hi Hcap Hlim Hs Ht.
  assert (Hb : bytes l) by (destruct Hs as (? & _ & _ & Hwf); apply Hwf).
  pose proof (sample_events pl mo a (mkEnv (p_cfg p) fin) l Ht) as Hev.
  assert (G : match f_sample pl (mkEnv (p_cfg p) fin) l 0 with
    | FOk b _ n _ => exists s p', parse_sample pl PB p = (Ok s, p') /\ view_sample s = b /\
        moved PB mo fin cap mem l a p n p'
    | FErr e _ n _ => exists p', parse_sample pl PB p = (Err e, p') end).
  { destruct Hs as (rep & HC & Hr & Hwf).
    pose proof (Ref_sample pl PB mo fin cap mem rep a HC Hcap) as HR.
    destruct (f_sample pl (mkEnv (p_cfg p) fin) l 0) as [b l' k ev|e l' k ev] eqn:E.
    - destruct (run_ok mo fin cap rep _ _ _ _ _ _ _ _ _ _ _ _ HR Hr Hwf E Hev) as (s & p' & Ep & [H1 _] & Hst).
      exists s, p'. split; [exact Ep|]. split; [exact H1|]. eapply step_moved; eassumption.
    - destruct (run_err mo fin cap rep _ _ _ _ _ _ _ _ _ _ _ _ HR Hr Hwf E Hev) as (p' & Ep & _).
      now exists p'. }
  split.
  - intros (s & p' & E & Hv & Hm).
    pose proof (Snd_sample pl Hpl (mkEnv (p_cfg p) fin) (len l) Hlim w Hw Hu Hi l 0) as Sd.
    destruct (f_sample pl (mkEnv (p_cfg p) fin) l 0) as [b l' k ev|e l' k ev].
    + destruct G as (s' & p'' & G1 & G2 & G3). rewrite E in G1. injection G1 as <- <-. rewrite Hv in G2. subst b.
      destruct (Sd _ _ _ _ Hb (N.le_refl _) eq_refl) as (bs & El & Ek & x & Ex & Hg & Hl).
      rewrite N.add_0_l in Ek.
      assert (n = len bs) by (destruct Hm as (_ & _ & _ & Hm), G3 as (_ & _ & _ & G3); lia).
      split; [apply Hm|]. exists x. split; [exact Ex|]. split; [exact Hg|].
      subst n l. now rewrite take_app_exact, drop_app_exact by reflexivity.
    + destruct G as (p'' & G). rewrite E in G. discriminate.
  - intros (Hn & x & <- & Hg & Hl).
    destruct (Runs_sample pl Hpl (mkEnv (p_cfg p) fin) (len l) Hlim w Hw Hu Hi x (take n l) (drop n l) 0 Hg)
      as (ev & E); [|rewrite len_take; lia|exact Hl|].
    { unfold bytes in *. rewrite <- (take_drop n l) in Hb. apply Forall_app in Hb. apply Hb. }
    rewrite take_drop in E. rewrite E in G. rewrite len_take, N.min_l, N.add_0_l in G by exact Hn. exact G.
Qed.

(** A sample with the CPU and two bytes of RAW data, padding and reserved bytes set. *)
Definition odd_sample_set : settings := mkSettings (2 ^ 7 + 2 ^ 10) 0 false false 0 0.
Definition odd_sample_cfg : config := mkConfig (cf_new 0 (2 ^ 7 + 2 ^ 10) false false 0) 0 0 Little.
Definition odd_sample : list N := w32 LE 3 ++ [1; 2; 3; 4] ++ w32 LE 2 ++ [70; 71] ++ [5; 6].

Example C65_example_sample :
  configured odd_sample_cfg odd_sample_set /\
  (exists x, sample_given odd_sample_set x /\ s_cpu (sw_sample x) = Some 3 /\ s_raw (sw_sample x) = Some [70; 71] /\
     laid (l_sample 64 LE LE odd_sample_set x) odd_sample []) /\
  exists s, fst (parse_sample pl64 slice_buf (on_slice 4097 odd_sample odd_sample_cfg)) = Ok s /\
    s_cpu s = Some 3 /\ option_map cow_list (s_raw s) = Some [70; 71].
Proof.
  split; [repeat split|]. split.
  - exists (mkSampleWire (mkSample None None None None None None None (Some 3) None None None (Some [70; 71])
      None None None None None None None None None None None None None) None []).
    split; [cbv; repeat split; try discriminate|]. split; [reflexivity|]. split; [reflexivity|].
    assert (K : forall fs bs rest, laid fs bs rest -> laid (([], false) :: fs) bs rest).
    { intros fs bs rest H. exists [], bs. repeat split; [constructor|discriminate|exact H]. }
    unfold l_sample. cbv [odd_sample_set sbit]. cbn [sw_sample].
    do 8 apply K. exists (w32 LE 3 ++ [1; 2; 3; 4]), (w32 LE 2 ++ [70; 71] ++ [5; 6]).
    split; [reflexivity|]. split; [cbv; repeat (constructor; [first [left; reflexivity|right; reflexivity]|]); constructor|].
    split; [discriminate|].
    do 3 apply K. exists (w32 LE 2 ++ [70; 71] ++ [5; 6]), [].
    split; [reflexivity|]. split; [cbv; repeat (constructor; [first [left; reflexivity|right; reflexivity]|]); constructor|].
    split; [discriminate|].
    do 12 apply K. reflexivity.
  - eexists. split; [vm_compute; reflexivity|]. split; reflexivity.
Qed.

(** Attrs: likewise.  The four bytes after the attr are taken with it ([C30_refuted]); for
    versions after 8 they have to be zero, as has everything these versions added. *)
Definition is_attr (o : order) (v : attr) (bs : list N) : Prop :=
  exists a r2 r3 ext four, attr_ok a r2 r3 ext /\ v = attr_seen a /\ len four = 4 /\
    bs = w_attr o a r2 r3 ext ++ four /\ (at_size a <= 136 \/ zero_bytes (ext ++ four)).

Theorem C65_attr :
  forall pl S (PB : parsebuf S) mo fin cap mem p l pos v n,
  let o := order_of pl (c_endian (p_cfg p)) in
  pl_ok pl -> source PB mo fin cap mem p l pos ->
  ((exists p', parse_attr pl PB p = (Ok v, p') /\ moved PB mo fin cap mem l pos p n p') <->
   (n <= len l /\ is_attr o v (take n l))).
Proof.
  intros pl S PB mo fin cap mem p l pos v n o Hpl Hs.
  assert (Hb : bytes l) by (destruct Hs as (? & _ & _ & Hwf); apply Hwf).
  split.
  - intros (p' & E & Hm).
    pose proof (attr_run pl S PB mo fin cap mem p l pos Hpl Hs) as R.
    pose proof (noev_attr pl (mkEnv (p_cfg p) fin) l 0) as Hn.
    pose proof (Snd_attr pl (mkEnv (p_cfg p) fin) (len l) l 0) as Sd.
    destruct (f_attr pl (mkEnv (p_cfg p) fin) l 0) as [x l' k ev|e l' k ev]; subst ev;
      destruct R as (p'' & E' & Ha); rewrite E in E'; [|discriminate]. injection E' as <- <-.
    destruct (Sd _ _ _ _ Hb (N.le_refl _) eq_refl) as (bs & El & Ek & r2 & r3 & ext & four & H1 & H2 & H3 & H4 & H5).
    rewrite N.add_0_l in Ek. assert (n = len bs) by (destruct Hm as (_ & _ & _ & Hm), Ha as (_ & _ & Ha); lia).
    split; [apply Hm|]. exists v, r2, r3, ext, four. split; [exact H1|]. split; [now symmetry|].
    split; [exact H3|]. split; [|exact H5]. rewrite El, take_app_exact by assumption. exact H4.
  - intros (Hn & a & r2 & r3 & ext & four & H1 & -> & H3 & H4 & H5).
    assert (El : l = w_attr o a r2 r3 ext ++ four ++ drop n l) by (rewrite app_assoc, <- H4; symmetry; apply take_drop).
    rewrite El in Hs.
    destruct (C30_exact pl S PB mo fin cap mem p a r2 r3 ext four (drop n l) pos Hpl H1 H3 Hs)
      as (r & p' & E & (A1 & A2 & A3) & Hr & _).
    rewrite (Hr H5) in E. exists p'. split; [exact E|].
    assert (Ln : n = at_size a + 4).
    { apply (f_equal len) in H4. rewrite len_take, N.min_l, len_app, H3 in H4 by exact Hn.
      destruct (attr_size o _ _ _ _ H1) as (_ & L & _). lia. }
    rewrite <- Ln in A1, A3. split; [exact Hn|]. split; [exact A1|]. now split.
Qed.

(** A version 0 attr read from a file, with what happened to follow it. *)
Example C65_example_attr :
  is_attr LE (attr_seen ex_attr0) (w_attr LE ex_attr0 0 0 [] ++ [9; 9; 9; 9]) /\
  fst (parse_attr pl64 slice_buf (on_slice 4096 (w_attr LE ex_attr0 0 0 [] ++ [9; 9; 9; 9] ++ [1]) ex_cfg0))
    = Ok (attr_seen ex_attr0) /\
  ~ is_attr LE (attr_seen ex_attr0) (w_attr LE ex_attr0 0 0 [] ++ [9; 9; 9]).
Proof.
  split.
  { exists ex_attr0, 0, 0, [], [9; 9; 9; 9]. split; [exact ex_attr0_ok|].
    split; [reflexivity|]. split; [reflexivity|]. split; [reflexivity|]. left. vm_compute. discriminate. }
  split; [vm_compute; reflexivity|].
  intros (a & r2 & r3 & ext & four & H1 & H2 & H3 & H4 & _).
  destruct (attr_size LE _ _ _ _ H1) as (_ & L & _).
  apply (f_equal len) in H4. rewrite !len_app, L, H3 in H4.
  apply (f_equal at_size) in H2. cbn in H2. rewrite <- H2 in H4. vm_compute in H4. discriminate H4.
Qed.

Print Assumptions C65_record_partial.
Print Assumptions C65_refused_partial.
Print Assumptions C65_one_reading.
Print Assumptions C65_stream_partial.
Print Assumptions C65_sample_partial.
Print Assumptions C65_attr.
