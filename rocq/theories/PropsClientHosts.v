(** Theorems: programs of clients on different hosts (C87). *)
From Coq Require Import NArith List Bool Lia.
From Verif Require Import Base BaseFacts Types Platform Config Buf Parser Contract Flat Refine.
From Verif Require Import Instances Prims Records Sample Record Attr Views RefFrame RefTop Wire Codec.
From Verif Require Import Spec SameFacts Copied Hosts Client ClientFacts ClientHosts ExData.
From Verif Require Import PropsFrame PropsSame PropsHost PropsClient.
Import ListNotations.
Open Scope N_scope.

(** The program asks for nothing that depends on where bytes lie, or neither source lends memory and [H] holds. *)
Definition told_apart {A : Type} (m : prog A) (mo1 mo2 : mode) (H : Prop) : Prop :=
  calm m \/ (mo1 = NoExt /\ mo2 = NoExt /\ H).

Lemma two_hosts : forall pl1 pl2 strict fin l c1 c2 A (m : prog A) mo1 a1 mo2 a2,
  pl_ok pl1 -> pl_ok pl2 -> pl_bits pl2 <= pl_bits pl1 -> (strict = true -> pl_bits pl1 = pl_bits pl2) ->
  same_data pl1 pl2 c1 c2 -> (portable m \/ c1 = c2) ->
  told_apart m mo1 mo2 ((at_home pl2 c2 -> at_home pl1 c1) /\ (strict = true -> at_home pl1 c1 -> at_home pl2 c2)) ->
  (strict = true \/ straight m) -> wf l -> (strict = false -> len l <= usize_max pl2) ->
  exists f1 f2, runs_as pl1 m f1 mo1 a1 /\ runs_as pl2 m f2 mo2 a2 /\
    match f1 (mkEnv c1 fin) l 0, f2 (mkEnv c2 fin) l 0 with
    | FOk x _ k _, FOk y _ k' _ => x = y /\ k = k'
    | FErr e _ k _, FErr e' _ k' _ => strict = true -> e = e' /\ k = k'
    | FErr _ _ _ _, FOk _ _ _ _ => strict = false
    | FOk _ _ _ _, FErr _ _ _ _ => False
    end.
Proof.
  intros pl1 pl2 strict fin l c1 c2 A m mo1 a1 mo2 a2 Hp1 Hp2 Hb Hs Hc Hport Hm Hst Hw Hl.
  pose proof (same_alike _ _ _ _ Hc) as Ha. set (o := order_of pl1 (c_endian c1)) in *.
  assert (Hr : room pl2 strict (len l)) by (split; [apply Hw|exact Hl]).
  assert (G : forall fs1 fb1 fs2 fb2,
    (forall m' : prog A, portable m' -> (calm m -> calm m') -> (straight m -> straight m') ->
       near pl1 pl2 o strict (len l) eq (flat_by pl1 fs1 fb1 m') (flat_by pl2 fs2 fb2 m')) ->
    match flat_by pl1 fs1 fb1 m (mkEnv c1 fin) l 0, flat_by pl2 fs2 fb2 m (mkEnv c2 fin) l 0 with
    | FOk x _ k _, FOk y _ k' _ => x = y /\ k = k'
    | FErr e _ k _, FErr e' _ k' _ => strict = true -> e = e' /\ k = k'
    | FErr _ _ _ _, FOk _ _ _ _ => strict = false
    | FOk _ _ _ _, FErr _ _ _ _ => False
    end).
  { intros fs1 fb1 fs2 fb2 X.
    assert (Y : forall m' : prog A, portable m' -> (calm m -> calm m') -> (straight m -> straight m') ->
      match flat_by pl1 fs1 fb1 m' (mkEnv c1 fin) l 0, flat_by pl2 fs2 fb2 m' (mkEnv c2 fin) l 0 with
      | FOk x _ k _, FOk y _ k' _ => x = y /\ k = k'
      | FErr e _ k _, FErr e' _ k' _ => strict = true -> e = e' /\ k = k'
      | FErr _ _ _ _, FOk _ _ _ _ => strict = false
      | FOk _ _ _ _, FErr _ _ _ _ => False
      end).
    { intros m' P1 P2 P3.
      pose proof (X m' P1 P2 P3 (mkEnv c1 fin) (mkEnv c2 fin) l 0 (conj Ha eq_refl) (proj1 Hw) (N.le_refl _)) as Z.
      destruct (flat_by pl1 fs1 fb1 m' _ l 0), (flat_by pl2 fs2 fb2 m' _ l 0); try exact Z.
      - destruct Z as (_ & ? & _ & _ & ?). now split.
      - intros E. destruct (Z E) as (? & _ & ?). now split. }
    destruct Hport as [Hport|E].
    - apply Y; auto.
    - subst c2. specialize (Y (told_cfg c1 m) (told_portable c1 A m)).
      rewrite !told_same in Y. apply Y; [|apply told_straight].
      intros Hcalm. apply within_noev, told_within, within_calm, Hcalm. }
  destruct Hm as [Hm|(-> & -> & Hh & Hh2)].
  - exists (flat pl1 m), (flat pl2 m).
    split; [intros S PB fin' cap mem p l' Hcap Hsrc; now apply run_flat|].
    split; [intros S PB fin' cap mem p l' Hcap Hsrc; now apply run_flat|].
    apply G. intros m' P1 P2 P3. apply near_calm; auto. destruct Hst; auto.
  - exists (flat_by pl1 (f_array pl1 fl_u64) (f_body_copied pl1) m), (flat_by pl2 (f_array pl2 fl_u64) (f_body_copied pl2) m).
    split; [intros S PB fin' cap mem p l' Hcap Hsrc; now apply run_copied|].
    split; [intros S PB fin' cap mem p l' Hcap Hsrc; now apply run_copied|].
    assert (Ho : order_of pl2 (c_endian c2) = o) by apply Ha.
    assert (N1 : order_eqb o (pl_host pl2) = true -> order_eqb o (pl_host pl1) = true).
    { intros E. apply home_eqb, Hh, home_eqb. now rewrite Ho. }
    apply G. intros m' P1 P2 P3. apply near_copied; auto; [|destruct Hst; auto].
    intros E. split; [|now apply Hs].
    destruct (order_eqb o (pl_host pl1)) eqn:E3.
    + symmetry. rewrite <- Ho. apply home_eqb, (Hh2 E), home_eqb. exact E3.
    + destruct (order_eqb o (pl_host pl2)) eqn:E4; [|reflexivity]. discriminate (N1 eq_refl).
Qed.

(** ** C87, on hosts of the same width a program does the same, errors included: whatever their byte orders if it asks
    for no arrays, and otherwise if both or neither have the byte order of the data. *)
Theorem C87_same :
  forall pl1 pl2 fin l A (m : prog A) S1 (PB1 : parsebuf S1) mo1 cap1 mem1 p1 a1 S2 (PB2 : parsebuf S2) mo2 cap2 mem2 p2 a2,
  pl_ok pl1 -> pl_ok pl2 -> pl_bits pl1 = pl_bits pl2 -> cap1 <= isize_max pl1 -> cap2 <= isize_max pl2 ->
  same_data pl1 pl2 (p_cfg p1) (p_cfg p2) -> (portable m \/ p_cfg p1 = p_cfg p2) ->
  told_apart m mo1 mo2 (at_home pl1 (p_cfg p1) <-> at_home pl2 (p_cfg p2)) ->
  source PB1 mo1 fin cap1 mem1 p1 l a1 -> source PB2 mo2 fin cap2 mem2 p2 l a2 ->
  exists n r p1' p2', match r with Ok _ | Err _ => True | Panic | Fuel => False end /\
    run pl1 m S1 PB1 p1 = (r, p1') /\ run pl2 m S2 PB2 p2 = (r, p2') /\
    moved PB1 mo1 fin cap1 mem1 l a1 p1 n p1' /\ moved PB2 mo2 fin cap2 mem2 l a2 p2 n p2'.
Proof.
  intros pl1 pl2 fin l A m S1 PB1 mo1 cap1 mem1 p1 a1 S2 PB2 mo2 cap2 mem2 p2 a2 Hp1 Hp2 Eb C1 C2 Hc Hport Hm H1 H2.
  assert (Hw : wf l) by (destruct H1 as (? & _ & _ & Hw); exact Hw).
  destruct (two_hosts pl1 pl2 true fin l (p_cfg p1) (p_cfg p2) A m mo1 a1 mo2 a2) as (f1 & f2 & R1 & R2 & X);
    auto; [rewrite Eb; apply N.le_refl| |discriminate|].
  { destruct Hm as [Hm|(-> & -> & Hh)]; [now left|right]. split; [reflexivity|]. split; [reflexivity|].
    split; [apply Hh|]. intros _. apply Hh. }
  specialize (R1 _ _ _ _ _ _ _ C1 H1). specialize (R2 _ _ _ _ _ _ _ C2 H2).
  destruct (f1 _ l 0) as [x l1 n ev|e l1 n ev], (f2 _ l 0) as [y l2 n2 ev2|e2 l2 n2 ev2]; try discriminate X; try contradiction X;
    destruct R1 as (_ & p1' & R1 & M1), R2 as (_ & p2' & R2 & M2).
  - destruct X as [<- <-]. exists n, (Ok x), p1', p2'. auto.
  - destruct (X eq_refl) as [<- <-]. exists n, (Err e), p1', p2'. auto.
Qed.

(** ** C87, what a program which catches no errors reads on a host with pointers at least as wide, it reads on the
    other.

    Full statement: a program does the same on any two hosts.  Missing: programs which catch errors or repeat what takes
    no bytes, what the wider host refuses, and data above 4 GiB where pointers have 32 bits; see below. *)
Theorem C87_elsewhere_partial :
  forall pl1 pl2 fin l A (m : prog A) v S1 (PB1 : parsebuf S1) mo1 cap1 mem1 p1 a1 p1'
    S2 (PB2 : parsebuf S2) mo2 cap2 mem2 p2 a2,
  pl_ok pl1 -> pl_ok pl2 -> pl_bits pl2 <= pl_bits pl1 -> cap1 <= isize_max pl1 -> cap2 <= isize_max pl2 ->
  same_data pl1 pl2 (p_cfg p1) (p_cfg p2) -> (portable m \/ p_cfg p1 = p_cfg p2) -> straight m ->
  told_apart m mo1 mo2 (at_home pl2 (p_cfg p2) -> at_home pl1 (p_cfg p1)) -> len l <= usize_max pl2 ->
  source PB1 mo1 fin cap1 mem1 p1 l a1 -> source PB2 mo2 fin cap2 mem2 p2 l a2 ->
  run pl1 m S1 PB1 p1 = (Ok v, p1') ->
  exists n p2', run pl2 m S2 PB2 p2 = (Ok v, p2') /\
    moved PB1 mo1 fin cap1 mem1 l a1 p1 n p1' /\ moved PB2 mo2 fin cap2 mem2 l a2 p2 n p2'.
Proof.
  intros pl1 pl2 fin l A m v S1 PB1 mo1 cap1 mem1 p1 a1 p1' S2 PB2 mo2 cap2 mem2 p2 a2
    Hp1 Hp2 Eb C1 C2 Hc Hport Hst Hm Hl H1 H2 R.
  assert (Hw : wf l) by (destruct H1 as (? & _ & _ & Hw); exact Hw).
  destruct (two_hosts pl1 pl2 false fin l (p_cfg p1) (p_cfg p2) A m mo1 a1 mo2 a2) as (f1 & f2 & R1 & R2 & X);
    auto; [discriminate| |].
  { destruct Hm as [Hm|(-> & -> & Hh)]; [now left|right]. split; [reflexivity|]. split; [reflexivity|].
    split; [apply Hh|]. discriminate. }
  specialize (R1 _ _ _ _ _ _ _ C1 H1). specialize (R2 _ _ _ _ _ _ _ C2 H2).
  destruct (f1 _ l 0) as [x l1 n ev|e l1 n ev]; destruct R1 as (_ & q & R1 & M1); rewrite R1 in R; [|discriminate].
  injection R as <- <-.
  destruct (f2 _ l 0) as [y l2 n2 ev2|e2 l2 n2 ev2]; [|contradiction]. destruct X as [<- <-].
  destruct R2 as (_ & p2' & R2 & M2). exists n, p2'. auto.
Qed.

(** ** C87, where it fails: lengths are cut to 32 bits, so a program may read what it could not, ... *)
Theorem C87_width_refuted : exists l mem,
  same_data pl64 pl32 ex_cfg ex_cfg /\
  source bufreader_buf NoExt eof_error 16384 mem (reader_of [l] ex_cfg) l 0 /\
  fst (run pl64 (PBytes (2 ^ 32 + 1)) _ bufreader_buf (reader_of [l] ex_cfg)) = Err eof_error /\
  fst (run pl32 (PBytes (2 ^ 32 + 1)) _ bufreader_buf (reader_of [l] ex_cfg)) = Ok [7].
Proof.
  exists [7], (fun _ => 0). split; [repeat split|]. split.
  - apply (reader_source [] [[7]] None); try (vm_compute; congruence); repeat constructor; discriminate.
  - split; vm_compute; reflexivity.
Qed.

(** ... and, if it catches the error, something else. *)
Theorem C87_caught_refuted : exists (m : prog N) l mem v1 v2,
  portable m /\ calm m /\ same_data pl64 pl32 ex_cfg ex_cfg /\
  source bufreader_buf NoExt eof_error 16384 mem (reader_of [l] ex_cfg) l 0 /\
  fst (run pl64 m _ bufreader_buf (reader_of [l] ex_cfg)) = Ok v1 /\
  fst (run pl32 m _ bufreader_buf (reader_of [l] ex_cfg)) = Ok v2 /\ v1 <> v2.
Proof.
  exists (PThen (PTry (PBytes (2 ^ 32 + 1))) (fun r => match r with inl _ => PRet 0 | inr d => PRet (len d) end)),
    [7], (fun _ => 0), 0, 1.
  split; [cbn; split; [exact Logic.I|]; intros []; exact Logic.I|].
  split; [cbn; split; [exact Logic.I|]; intros []; exact Logic.I|].
  split; [repeat split|]. split.
  - apply (reader_source [] [[7]] None); try (vm_compute; congruence); repeat constructor; discriminate.
  - split; [vm_compute; reflexivity|]. split; [vm_compute; reflexivity|discriminate].
Qed.

(** A program which looks at the name the configuration has for the byte order tells the hosts apart. *)
Theorem C87_named_refuted : exists (m : prog bool),
  calm m /\ straight m /\ pl_bits pl64 = pl_bits plbe /\ same_data pl64 plbe (chain_cfg Native) (chain_cfg Little) /\
  fst (run pl64 m _ bufreader_buf (reader_of [] (chain_cfg Native))) = Ok true /\
  fst (run plbe m _ bufreader_buf (reader_of [] (chain_cfg Little))) = Ok false.
Proof.
  exists (PThen PConfig (fun c => PRet match c_endian c with Native => true | _ => false end)).
  split; [cbn; auto|]. split; [cbn; auto|]. split; [reflexivity|]. split; [repeat split|]. split; vm_compute; reflexivity.
Qed.

(** The sample of the documentation is such a program: written once, it reads a sample alike on all hosts. *)
Example C87_example :
  portable custom_example /\ straight custom_example /\ calm custom_example /\
  same_data pl64 plbe (chain_cfg Native) (chain_cfg Little) /\
  same_data pl64 pl32 (chain_cfg Native) (chain_cfg Native) /\
  exists v, fst (run pl64 custom_example _ bufreader_buf (reader_of [doc_bytes] (chain_cfg Native))) = Ok v /\
    fst (run plbe custom_example _ bufreader_buf (reader_of [doc_bytes] (chain_cfg Little))) = Ok v /\
    fst (run pl32 custom_example _ slice_buf (on_slice 4097 doc_bytes (chain_cfg Native))) = Ok v /\
    snd v = doc_sample.
Proof.
  split; [cbn; repeat split; auto|].
  split; [cbn; tauto|]. split; [cbn; tauto|]. split; [repeat split|]. split; [repeat split|].
  eexists. split; [vm_compute; reflexivity|]. split; [vm_compute; reflexivity|]. split; vm_compute; reflexivity.
Qed.

(** A program which looks at the configuration, asks for an array and catches errors: alike on hosts of the data's byte
    order, whatever the alignment of words; and, if it catches none, also where it is not the host's. *)
Definition pl64_4 : platform := mkPlatform LE 64 Align4.
Example C87_config_example :
  let m := PThen PConfig (fun c => if contains (sample_type c) SF_CALLCHAIN then PSlice 1 else PRet []) in
  ~ portable m /\ ~ calm m /\ straight m /\
  same_data pl64 pl64_4 (chain_cfg Native) (chain_cfg Native) /\
  told_apart (PTry m) NoExt NoExt (at_home pl64 (chain_cfg Native) <-> at_home pl64_4 (chain_cfg Native)) /\
  fst (run pl64 (PTry m) _ bufreader_buf (reader_of [w64 LE 5] (chain_cfg Native))) = Ok (inr [5]) /\
  fst (run pl64_4 (PTry m) _ bufreader_buf (reader_of [w64 LE 5] (chain_cfg Native))) = Ok (inr [5]) /\
  same_data plbe pl64 (chain_cfg Big) (chain_cfg Big) /\
  told_apart m NoExt NoExt (at_home pl64 (chain_cfg Big) -> at_home plbe (chain_cfg Big)) /\
  ~ (at_home plbe (chain_cfg Big) -> at_home pl64 (chain_cfg Big)) /\
  fst (run plbe m _ bufreader_buf (reader_of [w64 BE 5] (chain_cfg Big))) = Ok [5] /\
  fst (run pl64 m _ bufreader_buf (reader_of [w64 BE 5] (chain_cfg Big))) = Ok [5].
Proof.
  cbv zeta. split; [intros [[] _]|]. split; [intros [_ H]; exact (H (chain_cfg Big))|].
  split; [cbn; split; [exact Logic.I|]; intros c; now destruct (contains _ _)|].
  split; [repeat split|]. split; [right; repeat split|]. split; [vm_compute; reflexivity|]. split; [vm_compute; reflexivity|].
  split; [repeat split|]. split; [right; repeat split|].
  split; [intros H; discriminate (H eq_refl)|]. split; vm_compute; reflexivity.
Qed.

Print Assumptions C87_same.
Print Assumptions C87_elsewhere_partial.
Print Assumptions C87_width_refuted.
Print Assumptions C87_caught_refuted.
Print Assumptions C87_named_refuted.
