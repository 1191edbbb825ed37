(** The parsers accept exactly the layouts of Accept.v. *)
From Coq Require Import NArith List Bool Lia.
From Verif Require Import Base BaseFacts Types Platform Config Bits ConfFacts Records Sample
  Record Flat Wire Codec Roundtrip Accept.
Import ListNotations.
Open Scope N_scope.

(** * Layouts *)

Lemma fits_just : forall l bs, fits (just l) bs <-> bs = l.
Proof.
  induction l as [|x l IH]; intros bs; cbn [just map].
  - split; [intros H; now inversion H|intros ->; constructor].
  - split.
    + intros H. inversion H as [|? y ? t Hx Ht]; subst. apply IH in Ht. subst t.
      destruct Hx as [Hx|Hx]; [discriminate|]. now injection Hx as ->.
    + intros ->. constructor; [now right|now apply IH].
Qed.

Lemma fits_any : forall n bs, fits (any n) bs <-> len bs = n.
Proof.
  intros n bs. unfold any, len. rewrite <- (N2Nat.id n) at 2. generalize (N.to_nat n). clear n. intros n.
  revert bs. induction n as [|n IH]; intros bs; cbn [repeat].
  - split; [intros H; now inversion H|]. destruct bs; [constructor|cbn [length]; lia].
  - split.
    + intros H. inversion H as [|? y ? t Hx Ht]; subst. apply IH in Ht. cbn [length]. lia.
    + destruct bs as [|y t]; cbn [length]; [lia|]. intros H. constructor; [now left|]. apply IH. lia.
Qed.

Lemma fits_app : forall q r bs, fits (q ++ r) bs <-> exists b1 b2, bs = b1 ++ b2 /\ fits q b1 /\ fits r b2.
Proof.
  intros q r bs. split.
  - intros H. apply Forall2_app_inv_l in H as (b1 & b2 & H1 & H2 & ->). now exists b1, b2.
  - intros (b1 & b2 & -> & H1 & H2). now apply Forall2_app.
Qed.

Lemma fits_app_intro : forall q r b1 b2, fits q b1 -> fits r b2 -> fits (q ++ r) (b1 ++ b2).
Proof. intros. now apply Forall2_app. Qed.

Lemma fits_nil : forall bs, fits [] bs <-> bs = [].
Proof. intros bs. exact (fits_just [] bs). Qed.

Lemma fits_refl : forall l, fits (just l) l.
Proof. intros l. now apply fits_just. Qed.

Lemma just_app : forall a b, just (a ++ b) = just a ++ just b.
Proof. intros. apply map_app. Qed.

(** Counts. *)
Lemma le_bytes_app : forall a b v, le_bytes (a + b) v = le_bytes a v ++ le_bytes b (v / 256 ^ N.of_nat a).
Proof.
  induction a as [|a IH]; intros b v; cbn [Nat.add le_bytes app].
  - now rewrite N.div_1_r.
  - rewrite IH, Nat2N.inj_succ, N.pow_succ_r'. do 3 f_equal. now rewrite N.div_div by (try apply N.pow_nonzero; discriminate).
Qed.

Lemma le_bytes_mod : forall a v, le_bytes a (v mod 256 ^ N.of_nat a) = le_bytes a v.
Proof.
  induction a as [|a IH]; intros v; [reflexivity|]. cbn [le_bytes].
  rewrite Nat2N.inj_succ, N.pow_succ_r'.
  assert (H : 256 ^ N.of_nat a <> 0) by now apply N.pow_nonzero.
  rewrite N.mod_mul_r by (exact H || discriminate). f_equal.
  - rewrite N.mul_comm, N.mod_add by discriminate. now rewrite N.mod_mod.
  - rewrite N.mul_comm, N.div_add by discriminate.
    rewrite (N.div_small (v mod 256)) by now apply N.mod_lt. rewrite N.add_0_l. apply IH.
Qed.

Section Counts.
Context (pl : platform) (Hpl : pl_ok pl) (o : order).

Lemma count_fits : forall v, v < 2 ^ 64 -> fits (l_count (pl_bits pl) o (as_usize pl v)) (w64 o v).
Proof.
  intros v Hv. unfold l_count, as_usize. destruct Hpl as [E|E]; rewrite E; cbn [N.eqb Pos.eqb].
  - assert (E1 : w32 o (v mod 2 ^ 32) = w32 o v).
    { unfold w32, enc. change (2 ^ 32) with (256 ^ N.of_nat 4). now rewrite le_bytes_mod. }
    rewrite E1. unfold w64, w32, enc. change 8%nat with (4 + 4)%nat. rewrite le_bytes_app. destruct o.
    + apply fits_app_intro; [apply fits_refl|]. apply fits_any. unfold len. now rewrite le_bytes_length.
    + rewrite rev_app_distr. apply fits_app_intro; [|apply fits_refl].
      apply fits_any. unfold len. now rewrite rev_length, le_bytes_length.
  - rewrite N.mod_small by exact Hv. apply fits_refl.
Qed.

Lemma count_of : forall n bs, bytes bs -> n <= usize_max pl -> fits (l_count (pl_bits pl) o n) bs ->
  exists v, v < 2 ^ 64 /\ as_usize pl v = n /\ bs = w64 o v.
Proof.
  intros n bs Hb Hn H. unfold l_count, as_usize, usize_max in *. destruct Hpl as [E|E]; rewrite E in *; cbn [N.eqb Pos.eqb] in H.
  - assert (Hx : exists lo hi, bs = match o with LE => lo ++ hi | BE => hi ++ lo end /\
      lo = w32 o n /\ len hi = 4 /\ bytes hi).
    { destruct o; apply fits_app in H as (b1 & b2 & -> & H1 & H2).
      - apply fits_just in H1. apply fits_any in H2. subst b1. eexists _, b2. split; [reflexivity|].
        apply Forall_app in Hb. tauto.
      - apply fits_any in H1. apply fits_just in H2. subst b2. eexists _, b1. split; [reflexivity|].
        apply Forall_app in Hb. tauto. }
    destruct Hx as (lo & hi & Ebs & Elo & Hhi & Bhi).
    set (h := from_order o hi).
    assert (Hh : h < 2 ^ 32).
    { unfold h. replace (2 ^ 32) with (256 ^ len hi) by now rewrite Hhi.
      destruct o; [apply from_le_bound|apply from_be_bound]; exact Bhi. }
    assert (Eh : hi = w32 o h).
    { symmetry. apply enc_from; [exact Bhi|]. unfold len in Hhi. lia. }
    assert (Hn' : n < 2 ^ 32) by (change (2 ^ 32) with 4294967296 in *; lia).
    exists (n + 2 ^ 32 * h). split; [change (2 ^ 64) with (2 ^ 32 * 2 ^ 32); nia|].
    rewrite N.add_mod, (N.mul_comm (2 ^ 32)), N.mod_mul, N.add_0_r, N.mod_mod, N.mod_small by (discriminate || exact Hn').
    split; [reflexivity|]. rewrite Ebs, Elo, Eh. unfold w64, w32, enc. change 8%nat with (4 + 4)%nat.
    rewrite le_bytes_app. change (256 ^ N.of_nat 4) with (2 ^ 32).
    assert (E1 : le_bytes 4 (n + h * 2 ^ 32) = le_bytes 4 n).
    { rewrite <- (le_bytes_mod 4 (n + h * 2 ^ 32)). change (256 ^ N.of_nat 4) with (2 ^ 32).
      rewrite N.mod_add by discriminate. now rewrite N.mod_small. }
    assert (E2 : (n + h * 2 ^ 32) / 2 ^ 32 = h).
    { rewrite N.div_add by discriminate. rewrite N.div_small by exact Hn'. apply N.add_0_l. }
    rewrite E1, E2. destruct o; [reflexivity|]. now rewrite rev_app_distr.
  - apply fits_just in H. exists n. rewrite N.mod_small by (change (2 ^ 64) with 18446744073709551616 in *; lia).
    split; [change (2 ^ 64) with 18446744073709551616 in *; lia|]. split; [reflexivity|exact H].
Qed.

Lemma as_usize_le : forall v, as_usize pl v <= usize_max pl.
Proof.
  intros v. unfold as_usize, usize_max.
  assert (2 ^ pl_bits pl <> 0) by now apply N.pow_nonzero.
  pose proof (N.mod_lt v (2 ^ pl_bits pl)). lia.
Qed.
End Counts.

(** * The two directions *)

Section Dir.
Context (env : fenv) (lim : N).

(** Whatever is accepted is laid out by [R]. *)
Definition Snd {B : Type} (f : F B) (R : B -> list N -> list N -> Prop) : Prop :=
  forall l pos b l' p' ev, bytes l -> len l <= lim -> f env l pos = FOk b l' p' ev ->
  exists bs, l = bs ++ l' /\ p' = pos + len bs /\ R b bs l'.

(** [bs] is accepted as [b]. *)
Definition Runs {B : Type} (f : F B) (bs : list N) (b : B) (rest : list N) (pos : N) : Prop :=
  exists ev, f env (bs ++ rest) pos = FOk b rest (pos + len bs) ev.

Lemma Rt_runs : forall B a0 poke (f : F B) bs b rest pos, Rt a0 poke env f bs b rest pos -> Runs f bs b rest pos.
Proof. intros B a0 poke f bs b rest pos (ev & E & _). now exists ev. Qed.

Lemma Snd_bind : forall B C (m : F B) (k : B -> F C) R1 (R : C -> list N -> list N -> Prop),
  Snd m R1 -> (forall a bs1, Snd (k a) (fun b bs2 rest => R1 a bs1 (bs2 ++ rest) -> R b (bs1 ++ bs2) rest)) ->
  Snd (fbind m k) R.
Proof.
  intros B C m k R1 R Hm Hk l pos b l' p' ev Hb Hl E. unfold fbind in E.
  destruct (m env l pos) as [a l1 p1 ev1|] eqn:E1; [|discriminate].
  destruct (k a env l1 p1) as [c l2 p2 ev2|] eqn:E2; [|discriminate].
  injection E as -> -> -> <-.
  destruct (Hm _ _ _ _ _ _ Hb Hl E1) as (bs1 & -> & -> & H1).
  apply Forall_app in Hb. rewrite len_app in Hl.
  destruct (Hk a bs1 l1 _ _ _ _ _ (proj2 Hb) ltac:(lia) E2) as (bs2 & -> & -> & H2).
  exists (bs1 ++ bs2). rewrite app_assoc, len_app. split; [reflexivity|]. split; [lia|]. now apply H2.
Qed.

Lemma Snd_ret : forall B (v : B) (R : B -> list N -> list N -> Prop), (forall rest, R v [] rest) -> Snd (fret v) R.
Proof.
  intros B v R H l pos b l' p' ev _ _ E. injection E as <- <- <- _. exists [].
  split; [reflexivity|]. split; [rewrite len_nil; lia|apply H].
Qed.

Lemma Snd_fail : forall B e R, Snd (@ffail B e) R.
Proof. intros B e R l pos b l' p' ev _ _ E. discriminate. Qed.

Lemma Snd_conv : forall B (f : F B) (R R' : B -> list N -> list N -> Prop), Snd f R ->
  (forall b bs rest, R b bs rest -> R' b bs rest) -> Snd f R'.
Proof.
  intros B f R R' H Hc l pos b l' p' ev Hb Hl E.
  destruct (H _ _ _ _ _ _ Hb Hl E) as (bs & E1 & E2 & H1). exists bs. auto.
Qed.

Lemma Snd_cfg : forall B (k : config -> F B) R, Snd (k (fe_cfg env)) R -> Snd (fbind fcfg k) R.
Proof.
  intros B k R H l pos b l' p' ev Hb Hl E. unfold fbind, fcfg in E.
  destruct (k (fe_cfg env) env l pos) eqn:Ek; [|discriminate]. injection E as -> -> -> _.
  eapply H; eassumption.
Qed.

Lemma Snd_take : forall n, Snd (f_take n) (fun v bs rest => v = bs /\ len bs = n /\ bs ++ rest <> []).
Proof.
  intros n l pos b l' p' ev _ _ E. unfold f_take in E.
  assert (Hne : l <> []) by (destruct l; discriminate).
  replace (match l with [] => FErr (fe_fin env) [] pos [] | _ :: _ =>
    if len l <? n then FErr (fe_fin env) [] (pos + len l) [] else FOk (take n l) (drop n l) (pos + n) [] end)
    with (if len l <? n then FErr (fe_fin env) [] (pos + len l) [] else FOk (take n l) (drop n l) (pos + n) [])
    in E by (destruct l; [contradiction|reflexivity]).
  destruct (N.ltb_spec (len l) n) as [H|H]; [discriminate|]. injection E as <- <- <- _.
  exists (take n l). rewrite take_drop, len_take. split; [reflexivity|].
  split; [lia|]. split; [reflexivity|]. split; [lia|exact Hne].
Qed.

Lemma Snd_if : forall B b (m : F B) R, Snd m R ->
  Snd (f_if b m) (fun x bs rest => match x with Some v => b = true /\ R v bs rest | None => b = false /\ bs = [] end).
Proof.
  intros B [] m R H; cbn [f_if].
  - eapply Snd_bind; [exact H|]. intros a bs1. apply Snd_ret. intros rest Hr.
    rewrite app_nil_r. cbn [app] in Hr. now split.
  - apply Snd_ret. now intros.
Qed.

Lemma Snd_event : forall B b e (k : unit -> F B) R, Snd (k tt) R -> Snd (fbind (f_event b e) k) R.
Proof.
  intros B b e k R H l pos v l' p' ev Hb Hl E. unfold fbind, f_event in E.
  destruct (k tt env l pos) eqn:Ek; [|discriminate]. injection E as -> -> -> _.
  eapply H; eassumption.
Qed.

Lemma Snd_rest : Snd f_rest (fun v bs rest => v = bs /\ bs <> [] /\ rest = []).
Proof.
  intros l pos b l' p' ev _ _ E. unfold f_rest in E. destruct l as [|x t]; [discriminate|].
  destruct (is_eof (fe_fin env)); [|discriminate]. injection E as <- <- <- _.
  exists (x :: t). rewrite app_nil_r. repeat split. discriminate.
Qed.

Lemma strip_zeros : forall l, exists k, l = strip l ++ zeros k /\ last (strip l) 1 <> 0.
Proof.
  assert (G : forall r, exists k, r = zeros k ++ skip_zeros r /\ hd 1 (skip_zeros r) <> 0).
  { induction r as [|b t IH]; [exists 0; split; [reflexivity|discriminate]|]. cbn [skip_zeros].
    destruct (N.eqb_spec b 0) as [->|Hn].
    - destruct IH as (k & E & H). exists (1 + k). split; [|exact H].
      unfold zeros. rewrite N2Nat.inj_add. cbn [N.to_nat Pos.to_nat Pos.iter_op Nat.add repeat app]. now rewrite E at 1.
    - exists 0. split; [reflexivity|exact Hn]. }
  intros l. destruct (G (rev l)) as (k & E & H). exists k. unfold strip. split.
  - apply (f_equal (@rev N)) in E. rewrite rev_involutive, rev_app_distr in E. rewrite E at 1. f_equal.
    unfold zeros. induction (N.to_nat k) as [|n IH]; [reflexivity|]. cbn [repeat rev]. rewrite IH.
    clear. induction n; [reflexivity|]. cbn [repeat app]. now rewrite IHn.
  - destruct (skip_zeros (rev l)) as [|x t]; [discriminate|]. cbn [rev]. now rewrite last_last.
Qed.

Lemma Snd_string : Snd f_string (fun s bs rest => rest = [] /\ exists k, bs = w_str s k /\ string_given s k).
Proof.
  unfold f_string. eapply Snd_bind; [apply Snd_rest|]. intros a bs1. apply Snd_ret.
  intros rest (-> & Hne & Hr). cbn [app] in Hr. rewrite app_nil_r. split; [exact Hr|].
  destruct (strip_zeros bs1) as (k & E & H). exists k. split; [exact E|]. split; [exact H|].
  unfold w_str. now rewrite <- E.
Qed.

Lemma Runs_bind : forall B C (m : F B) (k : B -> F C) bs1 bs2 a b rest pos,
  Runs m bs1 a (bs2 ++ rest) pos -> Runs (k a) bs2 b rest (pos + len bs1) ->
  Runs (fbind m k) (bs1 ++ bs2) b rest pos.
Proof.
  intros B C m k bs1 bs2 a b rest pos (ev1 & E1) (ev2 & E2). exists (ev1 ++ ev2).
  unfold fbind. rewrite <- app_assoc, E1, E2, len_app. f_equal. lia.
Qed.

Lemma Runs_ret : forall B (b b' : B) rest pos, b = b' -> Runs (fret b) [] b' rest pos.
Proof. intros B b b' rest pos ->. exists []. cbn. now rewrite N.add_0_r. Qed.

Lemma Runs_last : forall B C (m : F B) (k : B -> F C) bs a b rest pos,
  Runs m bs a rest pos -> Runs (k a) [] b rest (pos + len bs) -> Runs (fbind m k) bs b rest pos.
Proof.
  intros. rewrite <- (app_nil_r bs). eapply Runs_bind; eassumption.
Qed.

Lemma Runs_cfg : forall B (k : config -> F B) bs b rest pos,
  Runs (k (fe_cfg env)) bs b rest pos -> Runs (fbind fcfg k) bs b rest pos.
Proof. intros B k bs b rest pos (ev & E). exists ev. unfold fbind, fcfg. now rewrite E. Qed.

Lemma Runs_event : forall B b e (k : unit -> F B) bs v rest pos, Runs (k tt) bs v rest pos ->
  Runs (fbind (f_event b e) k) bs v rest pos.
Proof.
  intros B b e k bs v rest pos (ev & E). eexists. unfold fbind, f_event. rewrite E. reflexivity.
Qed.

Lemma Runs_take : forall n bs rest pos, len bs = n -> bs ++ rest <> [] -> Runs (f_take n) bs bs rest pos.
Proof.
  intros n bs rest pos Hn Hne. eapply (Rt_runs _ 0 true). apply Rt_take; [now symmetry|exact Hne].
Qed.

Lemma Runs_if : forall B b (m : F B) bs x rest pos,
  match x with Some v => b = true /\ Runs m bs v rest pos | None => b = false /\ bs = [] end ->
  Runs (f_if b m) bs x rest pos.
Proof.
  intros B b m bs [v|] rest pos [-> H]; cbn [f_if].
  - eapply Runs_last; [exact H|]. now apply Runs_ret.
  - subst bs. now apply Runs_ret.
Qed.

Lemma Runs_string : forall s k pos, is_eof (fe_fin env) = true -> string_given s k ->
  Runs f_string (w_str s k) s [] pos.
Proof.
  intros s k pos Hf [Hl Hne]. unfold f_string. eapply Runs_last.
  - eapply (Rt_runs _ 0 true). now apply Rt_rest.
  - apply Runs_ret. now apply strip_str.
Qed.
End Dir.

(** * Numbers and arrays *)

Section Prims.
Context (pl : platform) (env : fenv) (lim : N).

Let o := order_of pl (c_endian (fe_cfg env)).
Notation Sd := (Snd env lim).
Notation Rn := (Runs env).

Lemma Snd_uint : forall n : nat, (0 < n)%nat ->
  Sd (f_uint pl (N.of_nat n)) (fun v bs _ => v < 256 ^ N.of_nat n /\ bs = enc o n v).
Proof.
  intros n Hn l pos b l' p' ev Hb Hl E. unfold f_uint in E.
  assert (H : Sd (f_take (N.of_nat n)) (fun v bs rest => v = bs /\ len bs = N.of_nat n /\ bs ++ rest <> []))
    by apply Snd_take.
  unfold fbind, fcfg, fret in E. destruct (f_take (N.of_nat n) env l pos) as [d l1 p1 ev1|] eqn:E1; [|discriminate].
  destruct (H _ _ _ _ _ _ Hb Hl E1) as (bs & -> & -> & -> & Hlen & _). injection E as <- <- <- _.
  apply Forall_app in Hb as [Hb _].
  exists bs. split; [reflexivity|]. split; [reflexivity|]. fold o. split.
  - rewrite <- Hlen. destruct o; [now apply from_le_bound|now apply from_be_bound].
  - symmetry. apply enc_from; [exact Hb|]. unfold len in Hlen. lia.
Qed.

Lemma Snd_u8 : Sd (f_uint pl 1) (fun v bs _ => v < 256 /\ bs = w8 o v).
Proof. apply (Snd_uint 1). lia. Qed.
Lemma Snd_u16 : Sd (f_uint pl 2) (fun v bs _ => v < 2 ^ 16 /\ bs = w16 o v).
Proof. apply (Snd_uint 2). lia. Qed.
Lemma Snd_u32 : Sd (f_uint pl 4) (fun v bs _ => v < 2 ^ 32 /\ bs = w32 o v).
Proof. apply (Snd_uint 4). lia. Qed.
Lemma Snd_u64 : Sd (f_uint pl 8) (fun v bs _ => v < 2 ^ 64 /\ bs = w64 o v).
Proof. apply (Snd_uint 8). lia. Qed.

Lemma Runs_u8 : forall v rest pos, v < 256 -> Rn (f_uint pl 1) (w8 o v) v rest pos.
Proof. intros. eapply (Rt_runs _ _ 0 true). now apply Rt_u8. Qed.
Lemma Runs_u16 : forall v rest pos, v < 2 ^ 16 -> Rn (f_uint pl 2) (w16 o v) v rest pos.
Proof. intros. eapply (Rt_runs _ _ 0 true). now apply Rt_u16. Qed.
Lemma Runs_u32 : forall v rest pos, v < 2 ^ 32 -> Rn (f_uint pl 4) (w32 o v) v rest pos.
Proof. intros. eapply (Rt_runs _ _ 0 true). now apply Rt_u32. Qed.
Lemma Runs_u64 : forall v rest pos, v < 2 ^ 64 -> Rn (f_uint pl 8) (w64 o v) v rest pos.
Proof. intros. eapply (Rt_runs _ _ 0 true). now apply Rt_u64. Qed.

(** Any four or eight bytes. *)
Lemma Runs_any : forall n bs rest pos, len bs = N.of_nat n -> (0 < n)%nat -> 
  Rn (f_uint pl (N.of_nat n)) bs (from_order o bs) rest pos.
Proof.
  intros n bs rest pos Hl Hn. unfold f_uint. eapply Runs_last; [apply Runs_take; [exact Hl|]|].
  - intros E. apply app_eq_nil in E as [-> _]. cbn in Hl. lia.
  - cbv beta. apply Runs_cfg. now apply Runs_ret.
Qed.

(** Optional numbers. *)
Lemma Snd_f64 : forall b, Sd (f_if b (f_uint pl 8)) (fun x bs _ => field b (2 ^ 64) x /\ bs = w_if b (w64 o (val x))).
Proof.
  intros b. eapply Snd_conv; [apply Snd_if, Snd_u64|]. intros [v|] bs rest; cbn [field val].
  - intros (-> & H & ->). auto.
  - intros (-> & ->). auto.
Qed.
Lemma Snd_f32 : forall b, Sd (f_if b (f_uint pl 4)) (fun x bs _ => field b (2 ^ 32) x /\ bs = w_if b (w32 o (val x))).
Proof.
  intros b. eapply Snd_conv; [apply Snd_if, Snd_u32|]. intros [v|] bs rest; cbn [field val].
  - intros (-> & H & ->). auto.
  - intros (-> & ->). auto.
Qed.
Lemma Snd_cpu : forall b, Sd (f_if b (a <~ f_uint pl 4 ;; _ <~ f_uint pl 4 ;; fret a))
  (fun x bs _ => field b (2 ^ 32) x /\ fits (l_cpu o b x) bs).
Proof.
  intros b. eapply Snd_conv.
  - apply Snd_if. eapply (Snd_bind _ _ _ _ _ _ _ (fun v bs _ => v < 2 ^ 32 /\ fits (just (w32 o v) ++ any 4) bs));
      [apply Snd_u32|]. intros a bs1. cbv beta.
    eapply Snd_bind; [apply Snd_u32|]. intros c bs2. apply Snd_ret. intros rest [_ ->] [Ha ->].
    split; [exact Ha|]. apply fits_app_intro; [apply fits_refl|]. rewrite app_nil_r. apply fits_any. apply w32_len.
  - intros [v|] bs rest; cbn [field val].
    + intros (-> & H & Hf). auto.
    + intros (-> & ->). split; [reflexivity|]. constructor.
Qed.

Lemma Runs_f64 : forall b x rest pos, field b (2 ^ 64) x -> Rn (f_if b (f_uint pl 8)) (w_if b (w64 o (val x))) x rest pos.
Proof. intros. eapply (Rt_runs _ _ 0 true). now apply Rt_f64. Qed.
Lemma Runs_f32 : forall b x rest pos, field b (2 ^ 32) x -> Rn (f_if b (f_uint pl 4)) (w_if b (w32 o (val x))) x rest pos.
Proof.
  intros b x rest pos H. apply Runs_if. destruct x as [v|]; cbn [field val] in *.
  - destruct H as [-> H]. split; [reflexivity|now apply Runs_u32].
  - subst b. auto.
Qed.
Lemma Runs_cpu : forall b x bs rest pos, field b (2 ^ 32) x -> fits (l_cpu o b x) bs ->
  Rn (f_if b (a <~ f_uint pl 4 ;; _ <~ f_uint pl 4 ;; fret a)) bs x rest pos.
Proof.
  intros b x bs rest pos H Hf. apply Runs_if. unfold l_cpu in Hf. destruct x as [v|]; cbn [field val] in *.
  - destruct H as [-> H]. split; [reflexivity|]. apply fits_app in Hf as (b1 & b2 & -> & H1 & H2).
    apply fits_just in H1. apply fits_any in H2. subst b1. eapply Runs_bind; [now apply Runs_u32|].
    eapply Runs_last; [apply (Runs_any 4); [exact H2|lia]|]. now apply Runs_ret.
  - subst b. split; [reflexivity|]. now apply fits_nil.
Qed.

(** Arrays. *)
Lemma decode_inv : forall B (E : felem B) (f : B -> list N) (ok : B -> Prop) n l, 0 < fl_size E ->
  (forall x, bytes x -> len x = fl_size E -> f (fl_dec E o x) = x /\ ok (fl_dec E o x)) ->
  bytes l -> len l = n * fl_size E ->
  w_list f (decode E o l) = l /\ Forall ok (decode E o l) /\ len (decode E o l) = n.
Proof.
  intros B E f ok n l Hs Hf. revert l. induction n as [|n IH] using N.peano_ind; intros l Hb Hl.
  - rewrite N.mul_0_l in Hl. apply len_0 in Hl. subst l. unfold decode. rewrite chunks_nil. split; [reflexivity|]. split; [constructor|reflexivity].
  - rewrite N.mul_succ_l in Hl. unfold decode. rewrite chunks_cons by lia. cbn [map].
    rewrite <- (take_drop (fl_size E) l) in Hb. apply Forall_app in Hb as [Hb1 Hb2].
    destruct (Hf (take (fl_size E) l) Hb1 ltac:(rewrite len_take; lia)) as [E1 O1].
    destruct (IH (drop (fl_size E) l) Hb2 ltac:(rewrite len_drop; lia)) as (E2 & O2 & L2).
    unfold decode in E2, O2, L2. split; [|split].
    + unfold w_list in *. cbn [map concat]. rewrite E1, E2. apply take_drop.
    + now constructor.
    + rewrite len_cons, L2. lia.
Qed.

Lemma Snd_array : forall B (E : felem B) (f : B -> list N) (ok : B -> Prop) n, 0 < fl_size E ->
  (forall x, bytes x -> len x = fl_size E -> f (fl_dec E o x) = x /\ ok (fl_dec E o x)) ->
  Sd (f_array pl E n) (fun v bs rest => bs = w_list f v /\ len v = n /\ Forall ok v /\
    (in_host o (pl_host pl) n = 0 -> rest <> [])).
Proof.
  intros B E f ok n Hs Hf l pos b l' p' ev Hb Hl Eq. unfold f_array in Eq. fold o in Eq. cbv zeta in Eq.
  destruct (order_eqb o (pl_host pl) && (usize_max pl <? n * fl_size E)); [discriminate|].
  destruct (order_eqb o (pl_host pl) && (len l =? 0)) eqn:Ee; [discriminate|].
  destruct (N.ltb_spec (len l) (n * fl_size E)) as [Hn|Hn]; [discriminate|].
  injection Eq as <- <- <- _.
  assert (Hb' := Hb). rewrite <- (take_drop (n * fl_size E) l) in Hb'. apply Forall_app in Hb' as [Hb1 _].
  destruct (decode_inv B E f ok n (take (n * fl_size E) l) Hs Hf Hb1 ltac:(rewrite len_take; lia)) as (E1 & O1 & L1).
  exists (take (n * fl_size E) l). rewrite take_drop, len_take. split; [reflexivity|]. split; [lia|].
  split; [now symmetry|]. split; [exact L1|]. split; [exact O1|].
  intros H0. unfold in_host in H0. assert (order_eqb o (pl_host pl) = true /\ n = 0) as [Eo ->]
    by (destruct o, (pl_host pl); try discriminate; auto).
  rewrite Eo in Ee. cbn [andb] in Ee. apply N.eqb_neq in Ee. rewrite N.mul_0_l, drop_0. now apply len_pos_inv, N.neq_0_lt_0.
Qed.

Lemma Runs_array : lim <= usize_max pl -> forall B (E : felem B) (f : B -> list N) (l : list B) rest pos,
  0 < fl_size E -> (forall x, len (f x) = fl_size E) ->
  Forall (fun x => fl_dec E o (f x) = x) l -> len (w_list f l) <= lim ->
  (in_host o (pl_host pl) (len l) = 0 -> rest <> []) ->
  Rn (f_array pl E (len l)) (w_list f l) l rest pos.
Proof.
  intros Hlim B E f l rest pos Hs Hf Hl Hm Hne.
  eapply (Rt_runs _ _ (pad8 pos) true). apply Rt_array; try assumption; [reflexivity|lia| |].
  - intros Eo ->. apply Hne. unfold in_host. fold o in Eo. rewrite <- Eo. now destruct o.
  - rewrite N.add_comm. apply pad8_spec.
Qed.

Lemma dec_u64_inv : forall x, bytes x -> len x = fl_size fl_u64 ->
  w64 o (fl_dec fl_u64 o x) = x /\ fl_dec fl_u64 o x < 2 ^ 64.
Proof.
  intros x Hb Hl. cbn [fl_u64 fl_dec fl_size] in *. split.
  - apply enc_from; [exact Hb|]. unfold len in Hl. lia.
  - change (2 ^ 64) with (256 ^ 8). rewrite <- Hl. destruct o; [now apply from_le_bound|now apply from_be_bound].
Qed.

Lemma word_inv : forall x, bytes x -> len x = 8 -> w64 o (from_order o x) = x /\ from_order o x < 2 ^ 64.
Proof. exact dec_u64_inv. Qed.

Lemma dec_ns_inv : forall x, bytes x -> len x = fl_size fl_ns ->
  w_ns o (fl_dec fl_ns o x) = x /\ ns_dev (fl_dec fl_ns o x) < 2 ^ 64 /\ ns_inode (fl_dec fl_ns o x) < 2 ^ 64.
Proof.
  intros x Hb Hl. cbn [fl_ns fl_dec fl_size] in *. unfold w_ns. cbn [ns_dev ns_inode].
  assert (Hb' := Hb). rewrite <- (take_drop 8 x) in Hb'. apply Forall_app in Hb' as [B1 B2].
  destruct (word_inv (take 8 x) B1 ltac:(rewrite len_take; lia)) as [-> H1].
  destruct (word_inv (drop 8 x) B2 ltac:(rewrite len_drop; lia)) as [-> H2].
  rewrite take_drop. auto.
Qed.

Lemma dec_branch_inv : forall x, bytes x -> len x = fl_size fl_branch ->
  w_branch o (fl_dec fl_branch o x) = x /\ branch_ok (fl_dec fl_branch o x).
Proof.
  intros x Hb Hl. cbn [fl_branch fl_dec fl_size] in *. unfold w_branch, branch_ok. cbn [be_from be_to be_flags].
  assert (Hb' := Hb). rewrite <- (take_drop 8 x) in Hb'. apply Forall_app in Hb' as [B1 B2].
  rewrite <- (take_drop 8 (drop 8 x)), drop_drop in B2. apply Forall_app in B2 as [B2 B3].
  change (8 + 8) with 16 in B3.
  destruct (word_inv (take 8 x) B1 ltac:(rewrite len_take; lia)) as [-> H1].
  destruct (word_inv (take 8 (drop 8 x)) B2 ltac:(rewrite len_take, len_drop; lia)) as [-> H2].
  destruct (word_inv (drop 16 x) B3 ltac:(rewrite len_drop; lia)) as [-> H3].
  split; [|auto]. change 16 with (8 + 8). rewrite <- drop_drop. now rewrite take_drop, take_drop.
Qed.
End Prims.
