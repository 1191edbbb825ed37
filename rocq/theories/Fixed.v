(** Parsers that take a fixed number of bytes, whatever the bytes are. *)
From Coq Require Import NArith List Bool Lia.
From Verif Require Import Base BaseFacts Types Platform Config Buf Parser Records Record Contract Flat Refine.
From Verif Require Import RefTop Wire Codec Spec FrameFacts.
Import ListNotations.
Open Scope N_scope.

(** [f] takes [n] bytes; what it returns is in relation [Q] to them. *)
Definition Fixed (env : fenv) {A : Type} (f : F A) (n : N) (Q : A -> list N -> Prop) : Prop :=
  forall l pos, bytes l ->
    if len l <? n then exists pos', f env l pos = FErr (fe_fin env) [] pos' []
    else exists v, Q v (take n l) /\ f env l pos = FOk v (drop n l) (pos + n) [].

Lemma Fixed_ret : forall env A (v : A) (Q : A -> list N -> Prop), Q v [] -> Fixed env (fret v) 0 Q.
Proof.
  intros env A v Q H l pos Hw. rewrite (proj2 (N.ltb_ge _ _)) by lia.
  exists v. rewrite take_0, drop_0, N.add_0_r. auto.
Qed.

Lemma Fixed_conv : forall env A (f : F A) n (Q R : A -> list N -> Prop), Fixed env f n Q ->
  (forall v l, len l = n -> bytes l -> Q v l -> R v l) -> Fixed env f n R.
Proof.
  intros env A f n Q R Hf H l pos Hw. specialize (Hf l pos Hw).
  destruct (len l <? n) eqn:E; [exact Hf|]. apply N.ltb_ge in E.
  destruct Hf as (v & H1 & H2). exists v. split; [|exact H2].
  apply H; [rewrite len_take; lia|now apply bytes_take|exact H1].
Qed.

Lemma Fixed_bind : forall env A B (f : F A) (k : A -> F B) n m (Q : A -> list N -> Prop)
  (R : B -> list N -> Prop), Fixed env f n Q ->
  (forall v l1, len l1 = n -> bytes l1 -> Q v l1 ->
     Fixed env (k v) m (fun u l2 => R u (l1 ++ l2))) ->
  Fixed env (fbind f k) (n + m) R.
Proof.
  intros env A B f k n m Q R Hf Hk l pos Hw. specialize (Hf l pos Hw). unfold fbind.
  destruct (N.ltb_spec (len l) n) as [E|E].
  - destruct Hf as (pos' & ->). rewrite (proj2 (N.ltb_lt _ _)) by lia. now exists pos'.
  - destruct Hf as (v & HQ & ->).
    specialize (Hk v (take n l) ltac:(rewrite len_take; lia) ltac:(now apply bytes_take) HQ
      (drop n l) (pos + n) ltac:(now apply bytes_drop)).
    rewrite len_drop in Hk.
    destruct (N.ltb_spec (len l) (n + m)) as [E2|E2].
    + rewrite (proj2 (N.ltb_lt _ _)) in Hk by lia. destruct Hk as (pos' & ->). now exists pos'.
    + rewrite (proj2 (N.ltb_ge _ _)) in Hk by lia. destruct Hk as (u & HR & ->). exists u. split.
      * now rewrite take_plus.
      * now rewrite drop_drop, N.add_assoc.
Qed.

Lemma Fixed_uint : forall pl env n, 0 < n ->
  Fixed env (f_uint pl n) n (fun v l => v < 256 ^ n /\
    l = enc (order_of pl (c_endian (fe_cfg env))) (N.to_nat n) v).
Proof.
  intros pl env n Hn l pos Hw. unfold f_uint, fbind, f_take, fcfg, fret.
  destruct l as [|x t].
  - rewrite len_nil, (proj2 (N.ltb_lt _ _)) by lia. now exists pos.
  - destruct (len (x :: t) <? n) eqn:E; [eexists; reflexivity|]. apply N.ltb_ge in E.
    eexists. split; [|reflexivity].
    assert (El : len (take n (x :: t)) = n) by (rewrite len_take; lia).
    assert (Hb : bytes (take n (x :: t))) by now apply bytes_take. split.
    + rewrite <- El at 2. now apply from_order_bound.
    + symmetry. apply enc_from; [exact Hb|]. unfold len in El. lia.
Qed.

Lemma Fixed_if : forall env A b (f : F A) n (Q : A -> list N -> Prop), Fixed env f n Q ->
  Fixed env (f_if b f) (if b then n else 0)
    (fun x l => match x with Some v => b = true /\ Q v l | None => b = false /\ l = [] end).
Proof.
  intros env A b f n Q Hf. destruct b; cbn [f_if].
  - replace n with (n + 0) by lia. eapply Fixed_bind; [exact Hf|].
    intros v l1 _ _ Hq. apply Fixed_ret. now rewrite app_nil_r.
  - apply Fixed_ret. auto.
Qed.

Lemma Fixed_cfg : forall env A (k : config -> F A) n Q,
  Fixed env (k (fe_cfg env)) n Q -> Fixed env (fbind fcfg k) n Q.
Proof.
  intros env A k n Q Hk l pos Hw. unfold fbind, fcfg. specialize (Hk l pos Hw).
  destruct (k (fe_cfg env) env l pos); exact Hk.
Qed.

Lemma Fixed_take : forall env n, 0 < n -> Fixed env (f_take n) n (fun v l => v = l).
Proof.
  intros env n Hn l pos Hw. unfold f_take. destruct l as [|x t].
  - rewrite len_nil, (proj2 (N.ltb_lt _ _)) by lia. now exists pos.
  - destruct (len (x :: t) <? n) eqn:E; [eexists; reflexivity|]. eexists. split; reflexivity.
Qed.

(** From lists to sources. *)
Lemma fixed_run : forall S (PB : parsebuf S) mo fin cap mem A B (R : A -> B -> Prop) (m : M S A)
  (f : F B) n (Q : B -> list N -> Prop) p l a,
  (forall rep, contract PB mo fin cap mem rep -> Ref mo fin cap rep a R m f) ->
  Fixed (mkEnv (p_cfg p) fin) f n Q -> source PB mo fin cap mem p l a ->
  if len l <? n then exists p', m p = (Err fin, p')
  else exists v b p', m p = (Ok v, p') /\ R v b /\ Q b (take n l) /\
    moved PB mo fin cap mem l a p n p'.
Proof.
  intros S PB mo fin cap mem A B R m f n Q p l a HR Hf (rep & HC & Hr & Hw).
  specialize (Hf l 0 (proj1 Hw)). destruct (len l <? n).
  - destruct Hf as (pos' & E).
    destruct (run_err mo fin cap rep _ _ _ _ _ _ _ _ _ _ _ _ (HR rep HC) Hr Hw E ltac:(constructor))
      as (p' & Ep & _). now exists p'.
  - destruct Hf as (b & Hq & E). rewrite N.add_0_l in E.
    destruct (run_ok mo fin cap rep _ _ _ _ _ _ _ _ _ _ _ _ (HR rep HC) Hr Hw E ltac:(constructor))
      as (v & p' & Ep & Hv & Hst).
    exists v, b, p'. split; [exact Ep|]. split; [exact Hv|]. split; [exact Hq|].
    eapply step_moved; eassumption.
Qed.
