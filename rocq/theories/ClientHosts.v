(** Programs of clients (Client.v) on two hosts side by side. *)
From Coq Require Import NArith List Bool Lia.
From Verif Require Import Base BaseFacts Types Platform Config Buf Parser Contract Flat Refine.
From Verif Require Import Instances Prims Slices Records Record Attr Views RefRecords RefFrame RefTop.
From Verif Require Import ConfFacts Spec NoHint FrameFacts SameFacts RoundFacts PokeFacts Copied Client ClientFacts Hosts.
Import ListNotations.
Open Scope N_scope.

(** The program does not look at the configuration. *)
Fixpoint portable {A : Type} (m : prog A) : Prop :=
  match m with
  | PConfig => False
  | PThen m k => portable m /\ forall x, portable (k x)
  | PTry m | PIf _ m | PRepeat _ m _ => portable m
  | PMetadata _ k => forall md, portable (k md)
  | _ => True
  end.

(** If it gives a value then it has taken a byte. *)
Fixpoint eats {A : Type} (m : prog A) : Prop :=
  match m with
  | PThen m k => eats m \/ forall x, eats (k x)
  | PError _ | PU8 | PU16 | PU32 | PU64 => True
  | PArray n | PBytes n => 1 <= n < 2 ^ 32
  | PIf b m => b = true /\ eats m
  | _ => False
  end.

(** The program catches no errors, and what it repeats takes bytes. *)
Fixpoint straight {A : Type} (m : prog A) : Prop :=
  match m with
  | PTry _ => False
  | PThen m k => straight m /\ forall x, straight (k x)
  | PIf _ m => straight m
  | PRepeat _ m _ => straight m /\ eats m
  | PMetadata _ k => forall md, straight (k md)
  | _ => True
  end.

(** * Programs in terms of what they ask for *)

(** Arrays are asked for only if [sl], bodies only of types in [bd]. *)
Fixpoint within (sl : Prop) (bd : N -> Prop) {A : Type} (m : prog A) : Prop :=
  match m with
  | PThen m k => within sl bd m /\ forall x, within sl bd (k x)
  | PTry m | PIf _ m | PRepeat _ m _ => within sl bd m
  | PSlice _ => sl
  | PBody t => bd t
  | PRecord h => bd (h_type h mod 2 ^ 32)
  | PMetadata _ k => forall md, within sl bd (k md)
  | _ => True
  end.

Lemma within_calm : forall A (m : prog A), calm m -> within False (fun t => t <> 9 /\ t <> 16 /\ t <> 20) m.
Proof. intros A m. induction m; cbn; intuition. Qed.
Lemma within_all : forall A (m : prog A), within True (fun _ => True) m.
Proof. intros A m. induction m; cbn; intuition. Qed.

(** The configuration put in where it is asked for. *)
Fixpoint told_cfg (c : config) {A : Type} (m : prog A) : prog A :=
  match m in prog A return prog A with
  | PThen m k => PThen (told_cfg c m) (fun x => told_cfg c (k x))
  | PTry m => PTry (told_cfg c m)
  | PConfig => PRet c
  | PIf b m => PIf b (told_cfg c m)
  | PRepeat size m n => PRepeat size (told_cfg c m) n
  | PMetadata h k => PMetadata h (fun md => told_cfg c (k md))
  | m => m
  end.

Lemma told_portable : forall c A (m : prog A), portable (told_cfg c m).
Proof. intros c A m. induction m; cbn; auto. Qed.
Lemma told_within : forall c sl bd A (m : prog A), within sl bd m -> within sl bd (told_cfg c m).
Proof. intros c sl bd A m. induction m; cbn; intuition. Qed.
Lemma told_eats : forall c A (m : prog A), eats m -> eats (told_cfg c m).
Proof. intros c A m. induction m; cbn; intuition. Qed.
Lemma told_straight : forall c A (m : prog A), straight m -> straight (told_cfg c m).
Proof. intros c A m. induction m; cbn; intuition auto using told_eats. Qed.

Lemma told_same : forall pl fs fb c A (m : prog A) fin l pos,
  flat_by pl fs fb (told_cfg c m) (mkEnv c fin) l pos = flat_by pl fs fb m (mkEnv c fin) l pos.
Proof.
  intros pl fs fb c A m. induction m; intros fin l pos; cbn [told_cfg flat_by]; try reflexivity.
  - unfold fbind. rewrite IHm. destruct (flat_by pl fs fb m _ l pos); [|reflexivity]. now rewrite H.
  - unfold f_try. now rewrite IHm.
  - unfold f_if. destruct b; [|reflexivity]. unfold fbind. now rewrite IHm.
  - revert l pos. induction (N.to_nat (as_usize pl n0)) as [|k IH]; intros l pos; [reflexivity|].
    cbn [f_repeat]. unfold fbind in *. rewrite IHm. destruct (flat_by pl fs fb m _ l pos); [|reflexivity]. now rewrite IH.
  - unfold fbind. destruct (f_metadata_with_header pl (header_of h) (mkEnv c fin) l pos) as [r l' pos' ev|]; [|reflexivity].
    unfold fcfg. cbn [fe_cfg]. unfold f_sub. now rewrite H.
Qed.

(** * What is left of the bytes *)

(** A source of its own for any bytes and any end. *)
Definition listed (fin : perror) : parsebuf (list N) :=
  mkBuf (fun l => (match l with [] => Err fin | _ => Ok (Temporary l) end, l))
        (fun l n => (Ok tt, drop n l)) (fun _ => None).

Lemma listed_contract : forall fin cap mem, 16384 <= cap ->
  contract (listed fin) NoExt fin cap mem (fun s l _ => s = l).
Proof.
  intros fin cap mem Hcap. constructor.
  - intros s a ->. now exists [].
  - intros s l a -> Hl. destruct l as [|b l]; [congruence|]. exists (Temporary (b :: l)), (b :: l).
    split; [reflexivity|]. split; [reflexivity|]. split; [discriminate|].
    split; [exists []; symmetry; apply app_nil_r|]. split; [discriminate|].
    intros n Hn. exists (drop n (b :: l)). now split.
  - intros s l a h _ H. discriminate H.
  - intros s l a _ _. exact Hcap.
Qed.

Definition shrinks {B : Type} (f : F B) : Prop := forall env l pos, wf l ->
  match f env l pos with FOk _ l' _ _ | FErr _ l' _ _ => bytes l' /\ len l' <= len l end.

Lemma shrinks_by : forall pl fs fb A (m : prog A), pl_ok pl -> reads_as pl NoExt 0 fs fb ->
  evs (fun _ => True) (ev_ok NoExt 0) (flat_by pl fs fb m) -> shrinks (flat_by pl fs fb m).
Proof.
  intros pl fs fb A m Hpl HR Hev [c fin] l pos Hw.
  pose proof (record_cap pl Hpl) as Hcap.
  pose proof (Ref_run_by pl NoExt 0 fs fb Hpl HR A m _ (listed fin) fin 65536 (fun _ => 0) _
    (listed_contract fin 65536 (fun _ => 0) ltac:(lia)) ltac:(lia) ltac:(lia) (mkParser c l 0 []) l pos eq_refl Hw) as G.
  cbn [p_cfg] in G. specialize (Hev (mkEnv c fin) l pos Logic.I).
  destruct (flat_by pl fs fb m (mkEnv c fin) l pos) as [x l' n ev|e l' n ev].
  - destruct (G Hev) as (x' & p' & _ & _ & Hs).
    destruct (st_len _ _ _ _ _ _ _ _ _ Hs) as (k & _ & -> & _). split; [now apply bytes_drop, Hw|rewrite len_drop; lia].
  - destruct (G Hev) as (p' & _ & Hs).
    destruct (st_len _ _ _ _ _ _ _ _ _ Hs) as (k & _ & -> & _). split; [now apply bytes_drop, Hw|rewrite len_drop; lia].
Qed.

Lemma shrinks_copied : forall pl A (m : prog A), pl_ok pl -> shrinks (flat_by pl (f_array pl fl_u64) (f_body_copied pl) m).
Proof.
  intros pl A m Hpl. apply shrinks_by; [exact Hpl|apply reads_copied|].
  apply evs_run; intros; [apply evs_array_noext|apply evs_copied].
Qed.

Lemma within_noev : forall A (m : prog A), within False (fun t => t <> 9 /\ t <> 16 /\ t <> 20) m -> calm m.
Proof. intros A m. induction m; cbn; intuition. Qed.

Lemma shrinks_calm : forall pl A (m : prog A), pl_ok pl -> calm m -> shrinks (flat pl m).
Proof.
  intros pl A m Hpl Hm. apply shrinks_by; [exact Hpl|apply reads_any|].
  apply evs_noev. now apply noev_calm.
Qed.

(** * Near programs *)

Section Run.
Context (pl pl' : platform) (o : order) (strict : bool).
Context (Hpl : pl_ok pl) (Hpl' : pl_ok pl') (Hbits : pl_bits pl' <= pl_bits pl).
Context (Hst : strict = true -> pl_bits pl = pl_bits pl').
Notation near := (near pl pl' o strict).

(** As many bytes as there may be. *)
Definition room (B : N) : Prop := B < 2 ^ 64 /\ (strict = false -> B <= usize_max pl').

Lemma room_small : forall B, B <= 65535 -> room B.
Proof. intros B H. split; [lia|]. intros _. unfold usize_max. destruct Hpl' as [-> | ->]; lia. Qed.

Lemma usizes : forall B n, room B ->
  (as_usize pl n <= B -> as_usize pl n = as_usize pl' n) /\ (strict = true -> as_usize pl n = as_usize pl' n).
Proof.
  intros B n HB.
  exact (near_usize (mkPlatform LE (pl_bits pl) (pl_align pl)) (mkPlatform LE (pl_bits pl') (pl_align pl')) LE strict B
           Hbits (proj2 HB) (fun E => conj eq_refl (Hst E)) n).
Qed.

Lemma near_taken : forall B n, room B -> near B eq (f_take (as_usize pl n)) (f_take (as_usize pl' n)).
Proof.
  intros B n HB. destruct (usizes B n HB) as [H1 H2].
  eapply near_weak; [apply near_take_as; [exact H1|exact H2]|]. now intros x y (? & _).
Qed.

Lemma near_try : forall B A (m m' : F A), room B -> strict = true -> shrinks m -> near B eq m m' ->
  near B eq (f_try m) (f_try m').
Proof.
  intros B A m m' HB Es Hsh Hm env env' l pos He Hb Hl. specialize (Hm env env' l pos He Hb Hl).
  assert (Hw : wf l).
  { split; [exact Hb|]. destruct HB. lia. }
  specialize (Hsh env l pos Hw). unfold f_try.
  destruct (m env l pos) as [x l1 k ev|e l1 k ev], (m' env' l pos) as [y l2 k' ev'|e' l2 k' ev']; try contradiction.
  - destruct Hm as (-> & -> & H1 & H2 & <-). auto.
  - congruence.
  - destruct (Hm Es) as (-> & -> & ->). destruct Hsh as [H1 H2]. repeat split; [exact H1|lia].
Qed.

Lemma near_repeated : forall B A (m m' : F A) k, near B eq m m' -> near B eq (f_repeat k m) (f_repeat k m').
Proof.
  intros B A m m' k Hm. induction k as [|k IH]; cbn [f_repeat]; [now apply near_ret|].
  apply near_then; [exact Hm|]. intros x. apply near_then; [exact IH|]. intros r. now apply near_ret.
Qed.

Definition takes {A : Type} (m : F A) : Prop := forall env l pos, wf l ->
  match m env l pos with FOk _ l' _ _ => len l' < len l | FErr _ _ _ _ => True end.

Lemma takes_repeat : forall A (m : F A), shrinks m -> takes m -> forall k env l pos, wf l ->
  match f_repeat k m env l pos with FOk _ l' _ _ => N.of_nat k + len l' <= len l | FErr _ _ _ _ => True end.
Proof.
  intros A m Hsh Ht k. induction k as [|k IH]; intros env l pos Hw; cbn [f_repeat]; [cbn; lia|].
  unfold fbind. specialize (Ht env l pos Hw). specialize (Hsh env l pos Hw).
  destruct (m env l pos) as [x l1 q ev|]; [|exact Logic.I]. destruct Hsh as [Hb1 Hl1].
  assert (Hw1 : wf l1) by (destruct Hw; split; [exact Hb1|lia]).
  specialize (IH env l1 q Hw1). destruct (f_repeat k m env l1 q); [|exact Logic.I]. cbn [fret]. rewrite Nat2N.inj_succ. lia.
Qed.

Lemma near_count : forall B A (m m' : F A) n, room B -> near B eq m m' ->
  (strict = true \/ (shrinks m /\ takes m)) ->
  near B eq (f_repeat (N.to_nat (as_usize pl n)) m) (f_repeat (N.to_nat (as_usize pl' n)) m').
Proof.
  intros B A m m' n HB Hm Hc. destruct (usizes B n HB) as [H1 H2].
  assert (C : strict = true \/ strict = false) by (destruct strict; auto).
  destruct C as [Es|Es].
  - rewrite (H2 Es). now apply near_repeated.
  - destruct Hc as [Hc|[Hsh Ht]]; [congruence|]. intros env env' l pos He Hb Hl.
    assert (Hw : wf l).
    { split; [exact Hb|]. destruct HB. lia. }
    pose proof (takes_repeat A m Hsh Ht (N.to_nat (as_usize pl n)) env l pos Hw) as G.
    pose proof (near_repeated B A m m' (N.to_nat (as_usize pl n)) Hm env env' l pos He Hb Hl) as R.
    destruct (f_repeat (N.to_nat (as_usize pl n)) m env l pos) as [x l1 k ev|e l1 k ev] eqn:E1.
    + rewrite N2Nat.id in G. rewrite <- H1 by lia. exact R.
    + destruct (f_repeat (N.to_nat (as_usize pl' n)) m' env' l pos); [exact Es|congruence].
Qed.

Context (sl : Prop) (bd : N -> Prop) (fs fs' : N -> F (list N)) (fb fb' : N -> F (body list)).
Context (Hs : sl -> forall B n, room B -> near B eq (fs (as_usize pl n)) (fs' (as_usize pl' n))).
Context (Hb : forall B t, bd t -> room B -> near B eq (fb t) (fb' t)).
Context (Hsh : forall A (m : prog A), within sl bd m -> shrinks (flat_by pl fs fb m)).

Lemma takes_uint : forall n, 1 <= n -> takes (f_uint pl n).
Proof.
  intros n Hn env l pos Hw. unfold f_uint, fbind, f_take. destruct l as [|b l]; [exact Logic.I|].
  destruct (N.ltb_spec (len (b :: l)) n); [exact Logic.I|]. cbn [fcfg fret]. rewrite len_drop. lia.
Qed.

Lemma takes_take : forall n, 1 <= n < 2 ^ 32 -> takes (f_take (as_usize pl n)).
Proof.
  intros n Hn env l pos Hw. unfold f_take. destruct l as [|b l]; [exact Logic.I|].
  assert (E : as_usize pl n = n).
  { unfold as_usize. apply N.mod_small. destruct Hpl as [E|E]; rewrite E; lia. }
  rewrite E. destruct (N.ltb_spec (len (b :: l)) n); [exact Logic.I|]. rewrite len_drop. lia.
Qed.

Lemma takes_eats : forall A (m : prog A), within sl bd m -> eats m -> takes (flat_by pl fs fb m).
Proof.
  intros A m. induction m; cbn [within eats flat_by]; intros Hw He; try contradiction;
    try (apply takes_uint; lia); try (now apply takes_take).
  - destruct Hw as [Hw1 Hw2]. intros env l pos Hl. unfold fbind.
    pose proof (Hsh _ m Hw1 env l pos Hl) as S1.
    assert (T1 : eats m -> match flat_by pl fs fb m env l pos with FOk _ l' _ _ => len l' < len l | _ => True end)
      by (intros E; now apply IHm).
    destruct (flat_by pl fs fb m env l pos) as [x l1 q ev|]; [|exact Logic.I]. destruct S1 as [Hb1 Hl1].
    assert (Hwl : wf l1) by (destruct Hl; split; [exact Hb1|lia]).
    pose proof (Hsh _ _ (Hw2 x) env l1 q Hwl) as S2.
    destruct He as [He|He].
    + specialize (T1 He). destruct (flat_by pl fs fb _ env l1 q); [lia|exact Logic.I].
    + specialize (H x (Hw2 x) (He x) env l1 q Hwl). destruct (flat_by pl fs fb _ env l1 q); [lia|exact Logic.I].
  - intros env l pos _. exact Logic.I.
  - destruct He as [-> He]. unfold f_if. intros env l pos Hl. unfold fbind. specialize (IHm Hw He env l pos Hl).
    destruct (flat_by pl fs fb m env l pos); [exact IHm|exact Logic.I].
Qed.

Lemma near_record_by : forall B h, h_size h < 2 ^ 16 -> bd (h_type h) ->
  near B eq (f_record_by pl fb h) (f_record_by pl' fb' h).
Proof.
  intros B h Hh Ht. unfold f_record_by. eapply near_bind; [apply near_metadata|]. intros x y (<- & Hx & Hl).
  apply near_cfg. intros c c' Hc. apply near_then.
  - apply (near_sub _ _ _ _ _ _ B (h_size h)); [now apply alike_misc|exact Hx|exact Hl|].
    apply Hb; [exact Ht|]. apply room_small. lia.
  - intros b. now apply near_ret.
Qed.

Lemma near_run : forall A (m : prog A) b0, room b0 -> within sl bd m -> portable m ->
  (strict = true \/ straight m) -> near b0 eq (flat_by pl fs fb m) (flat_by pl' fs' fb' m).
Proof.
  intros A m. induction m; intros b0 HB Hw Hp Hc; cbn [within portable straight flat_by] in *; try contradiction.
  - now apply near_ret.
  - destruct Hw, Hp. apply near_then; [apply IHm; tauto|]. intros x. apply H; try tauto; auto.
    destruct Hc as [Hc|[_ Hc]]; auto.
  - apply near_fail.
  - destruct Hc as [Hc|[]]. apply near_try; auto.
  - apply near_uint.
  - apply near_uint.
  - apply near_uint.
  - apply near_uint.
  - now apply near_taken.
  - now apply near_taken.
  - apply near_rest.
  - apply near_string.
  - apply near_if. auto.
  - apply near_count; [exact HB|apply IHm; tauto|]. destruct Hc as [Hc|[_ Hc]]; [now left|right].
    split; [now apply Hsh|now apply takes_eats].
  - apply near_sample_id.
  - apply near_attr.
  - now apply Hs.
  - now apply Hb.
  - apply near_record_by; [cbn; apply N.mod_lt; lia|exact Hw].
  - eapply near_bind; [apply near_metadata|]. intros x y (<- & Hx & Hl).
    apply near_cfg. intros c c' Hcc. apply (near_sub _ _ _ _ _ _ b0 (h_size (header_of h))); [exact Hcc|exact Hx|exact Hl|].
    apply H; auto; [|destruct Hc as [Hc|Hc]; auto].
    apply room_small. cbn. pose proof (N.mod_lt (h_size h) 65536 ltac:(lia)). lia.
Qed.
End Run.

(** * The two kinds of programs *)

Lemma near_calm : forall pl pl' o strict A (m : prog A) B, pl_ok pl -> pl_ok pl' -> pl_bits pl' <= pl_bits pl ->
  (strict = true -> pl_bits pl = pl_bits pl') -> room pl' strict B -> calm m -> portable m ->
  (strict = true \/ straight m) -> near pl pl' o strict B eq (flat pl m) (flat pl' m).
Proof.
  intros pl pl' o strict A m B H1 H2 H3 H4 HB Hm Hp Hc.
  apply (near_run pl pl' o strict H1 H2 H3 H4 False (fun t => t <> 9 /\ t <> 16 /\ t <> 20)); auto.
  - contradiction.
  - intros B' t (T1 & T2 & _) _. now apply near_plain_body.
  - intros A' m' Hw. apply shrinks_calm; [exact H1|]. now apply within_noev.
  - now apply within_calm.
Qed.

Lemma near_copied : forall pl pl' o strict A (m : prog A) B, pl_ok pl -> pl_ok pl' -> pl_bits pl' <= pl_bits pl ->
  (order_eqb o (pl_host pl') = true -> order_eqb o (pl_host pl) = true) ->
  (strict = true -> order_eqb o (pl_host pl) = order_eqb o (pl_host pl') /\ pl_bits pl = pl_bits pl') ->
  room pl' strict B -> portable m -> (strict = true \/ straight m) ->
  near pl pl' o strict B eq (flat_by pl (f_array pl fl_u64) (f_body_copied pl) m)
                            (flat_by pl' (f_array pl' fl_u64) (f_body_copied pl') m).
Proof.
  intros pl pl' o strict A m B H1 H2 H3 Hn H4 HB Hp Hc.
  apply (near_run pl pl' o strict H1 H2 H3 (fun E => proj2 (H4 E)) True (fun _ => True)); auto.
  - intros _ B' n HB'. destruct HB'. apply near_counted; auto. now vm_compute.
  - intros B' t _ HB'. unfold f_body_copied. destruct (t =? 20); [|destruct HB'; apply near_body; auto].
    unfold f_poke_copied, f_poke_raw. apply near_then; [|intros; now apply near_ret].
    apply near_then; [|intros; now apply near_ret].
    repeat (apply near_then; [first [apply near_uint|apply near_take_eq]|intros ?]). now apply near_ret.
  - intros A' m' _. now apply shrinks_copied.
  - apply within_all.
Qed.
