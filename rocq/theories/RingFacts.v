(** The ring buffer as a source, and sessions with it. *)
From Coq Require Import NArith List Bool Lia.
From Verif Require Import Base BaseFacts Types Platform Config Buf Parser Contract Flat Refine.
From Verif Require Import Instances Record Views RefFrame Spec NoHint FrameFacts SameFacts PropsFrame PropsSame Framing FramingFacts Ring.
Import ListNotations.
Open Scope N_scope.

Lemma span_len : forall m base size n k, length (span m base size k n) = n.
Proof. intros m base size n. induction n as [|n IH]; intros k; cbn; [|rewrite IH]; reflexivity. Qed.

Lemma span_app : forall m base size n1 n2 k,
  span m base size k (n1 + n2) = span m base size k n1 ++ span m base size (k + N.of_nat n1) n2.
Proof.
  intros m base size n1. induction n1 as [|n1 IH]; intros n2 k; cbn [span app Nat.add].
  - now rewrite N.add_0_r.
  - rewrite IH. do 2 f_equal. f_equal. lia.
Qed.

Lemma span_same : forall m m' base size n k,
  (forall j, k <= j -> j < k + N.of_nat n -> m' (base + j mod size) = m (base + j mod size)) ->
  span m' base size k n = span m base size k n.
Proof.
  intros m m' base size n. induction n as [|n IH]; intros k H; [reflexivity|]. cbn [span].
  rewrite H by lia. f_equal. apply IH. intros j H1 H2. apply H; lia.
Qed.

(** Within the ring it is a stretch of memory. *)
Lemma span_stretch : forall m base size n k, size <> 0 -> k mod size + N.of_nat n <= size ->
  span m base size k n = stretch m (base + k mod size) n.
Proof.
  intros m base size n. induction n as [|n IH]; intros k Hs H; [reflexivity|]. cbn [span stretch]. f_equal.
  destruct n as [|n]; [reflexivity|].
  assert (E : (k + 1) mod size = k mod size + 1).
  { rewrite (N.div_mod k size Hs) at 1. rewrite <- N.add_assoc, N.add_comm, N.mul_comm, N.mod_add by exact Hs.
    apply N.mod_small. lia. }
  rewrite IH by (rewrite ?E; lia). now rewrite E, N.add_assoc.
Qed.

(** Two positions less than a round apart are not at the same place. *)
Lemma apart : forall size k d, 0 < d -> d < size -> (k + d) mod size <> k mod size.
Proof.
  intros size k d H1 H2 E. assert (Hs : size <> 0) by lia.
  pose proof (N.div_mod k size Hs) as K. pose proof (N.div_mod (k + d) size Hs) as L. rewrite E in L.
  assert (M : size * ((k + d) / size) = size * (k / size) + d) by lia.
  assert ((k + d) / size <= k / size \/ k / size + 1 <= (k + d) / size) as [G|G] by lia.
  - assert (size * ((k + d) / size) <= size * (k / size)) by (apply N.mul_le_mono_l; exact G). lia.
  - assert (size * (k / size + 1) <= size * ((k + d) / size)) by (apply N.mul_le_mono_l; exact G). lia.
Qed.

Lemma store_other : forall base size f k m j, size <> 0 ->
  (forall i, i < len f -> (k + i) mod size <> j mod size) ->
  store base size k f m (base + j mod size) = m (base + j mod size).
Proof.
  intros base size f. induction f as [|b f IH]; intros k m j Hs H; [reflexivity|]. cbn [store]. rewrite IH.
  - unfold set_byte. destruct (N.eqb_spec (base + j mod size) (base + k mod size)) as [E|]; [|reflexivity].
    exfalso. apply (H 0); [rewrite len_cons; lia|]. rewrite N.add_0_r. lia.
  - exact Hs.
  - intros i Hi. rewrite <- N.add_assoc, (N.add_comm 1). apply H. rewrite len_cons. lia.
Qed.

Lemma store_back : forall base size f k m, size <> 0 -> len f <= size ->
  span (store base size k f m) base size k (length f) = f.
Proof.
  intros base size f. induction f as [|b f IH]; intros k m Hs H; [reflexivity|]. rewrite len_cons in H. cbn [store span length].
  rewrite IH by (trivial; lia). f_equal. rewrite store_other.
  - unfold set_byte. now rewrite N.eqb_refl.
  - exact Hs.
  - intros i Hi. rewrite <- N.add_assoc. apply apart; lia.
Qed.

(** The kernel keeps what was not released. *)
Lemma write_keeps : forall s f, sound s ->
  sound (write s f) /\ sh_base (write s f) = sh_base s /\ sh_size (write s f) = sh_size s /\
  sh_tail (write s f) = sh_tail s /\ sh_put s <= sh_put (write s f) /\
  forall j, sh_tail s <= j -> j < sh_put s -> sh_mem (write s f) (cell s j) = sh_mem s (cell s j).
Proof.
  intros s f (H1 & H2 & H3). unfold write. destruct (N.ltb_spec (sh_size s) (sh_put s - sh_tail s + len f)) as [H|H].
  - repeat split; auto; lia.
  - unfold sound. cbn [sh_size sh_tail sh_put sh_base sh_mem]. repeat split; auto; try lia.
    intros j Hj1 Hj2. unfold cell. apply store_other; [exact H1|]. intros i Hi.
    replace (sh_put s + i) with (j + (sh_put s + i - j)) by lia. apply apart; lia.
Qed.

Lemma writes_keep : forall ws s, sound s ->
  let s' := fold_left write ws s in
  sound s' /\ sh_base s' = sh_base s /\ sh_size s' = sh_size s /\ sh_tail s' = sh_tail s /\ sh_put s <= sh_put s' /\
  forall j, sh_tail s <= j -> j < sh_put s -> sh_mem s' (cell s j) = sh_mem s (cell s j).
Proof.
  induction ws as [|f ws IH]; intros s H; cbv zeta; cbn [fold_left].
  - repeat split; auto; apply H || lia.
  - destruct (write_keeps s f H) as (S1 & B1 & Z1 & T1 & P1 & M1).
    destruct (IH _ S1) as (S2 & B2 & Z2 & T2 & P2 & M2). cbv zeta in *. unfold cell in *.
    rewrite B1, Z1 in M2. repeat split; try (apply S2); try congruence; try lia.
    intros j Hj1 Hj2. rewrite M2 by lia. apply M1; assumption.
Qed.

Lemma write_holds : forall s q f, holds s q -> holds (write s f) (admit_to (sh_size s) q f).
Proof.
  intros s q f (Hs & Hp & Hm). unfold admit_to. pose proof (write_keeps s f Hs) as (S1 & B1 & Z1 & T1 & P1 & M1).
  replace (sh_put s - sh_tail s) with (len (concat q)) in * by lia.
  unfold write in *. replace (sh_put s - sh_tail s) with (len (concat q)) in * by lia.
  destruct (N.ltb_spec (sh_size s) (len (concat q) + len f)) as [H|H]; [now split|].
  split; [exact S1|]. cbn [sh_base sh_size sh_mem sh_tail sh_put] in *. rewrite concat_app. cbn [concat]. rewrite app_nil_r.
  split; [rewrite len_app; lia|]. rewrite app_length, span_app. destruct Hs as (Hz & _ & _). f_equal.
  - rewrite <- Hm at 2. apply span_same. intros j H1 H2. apply M1; [exact H1|]. rewrite Hp. exact H2.
  - fold (len (concat q)). rewrite <- Hp. apply store_back; [exact Hz|lia].
Qed.

Lemma writes_hold : forall ws s q, holds s q -> holds (fold_left write ws s) (fold_left (admit_to (sh_size s)) ws q).
Proof.
  induction ws as [|f ws IH]; intros s q H; cbn [fold_left]; [exact H|].
  pose proof (write_holds s q f H) as H1. destruct (write_keeps s f (proj1 H)) as (_ & _ & Z & _).
  specialize (IH _ _ H1). rewrite Z in IH. exact IH.
Qed.

(** ** The source *)
Section Source.
Context (s0 : shared) (ws0 : list (list (list N))) (mem : memory).
Context (Hs : sound s0) (Hb : sh_base s0 mod 8 = 0) (Hz : sh_size s0 mod 8 = 0).
Context (Hm : forall j, sh_tail s0 <= j -> j < sh_put s0 -> mem (cell s0 j) = sh_mem s0 (cell s0 j)).

Definition ring_rep (r : reader) (l : list N) (a : N) : Prop :=
  (exists gone, ws0 = gone ++ rd_script r /\ rd_shared r = fold_left write (concat gone) s0) /\
  rd_head r = sh_put s0 /\ sh_tail s0 <= rd_at r /\ rd_at r + len l = sh_put s0 /\
  l = span (sh_mem s0) (sh_base s0) (sh_size s0) (rd_at r) (length l) /\ a mod 8 = (sh_base s0 + rd_at r) mod 8.

Lemma kernel_rep : forall r l a, ring_rep r l a -> ring_rep (kernel r) l a /\ rd_at (kernel r) = rd_at r.
Proof.
  intros r l a ((gone & E1 & E2) & H). unfold kernel. destruct (rd_script r) as [|w t] eqn:E.
  - split; [|reflexivity]. split; [|exact H]. exists gone. now rewrite E.
  - split; [|reflexivity]. split; [|exact H]. exists (gone ++ [w]). cbn [rd_script rd_shared].
    rewrite concat_app, fold_left_app, <- E2. cbn [concat]. rewrite app_nil_r, <- app_assoc. now split.
Qed.

(** Where a position is, modulo a word. *)
Lemma cell_mod : forall k, (sh_base s0 + k mod sh_size s0) mod 8 = (sh_base s0 + k) mod 8.
Proof.
  intros k. destruct Hs as (Hn & _). rewrite (N.add_mod _ (k mod _)), (N.add_mod _ k) by discriminate. do 2 f_equal.
  pose proof (N.div_mod k (sh_size s0) Hn) as K. pose proof (N.div_mod (sh_size s0) 8 ltac:(discriminate)) as L. rewrite Hz, N.add_0_r in L.
  rewrite K at 2. rewrite L at 2. rewrite <- N.mul_assoc, N.mul_comm, N.add_comm, N.mod_add by discriminate. reflexivity.
Qed.

Lemma mem_at_stretch : forall m x n, mem_at m x (stretch m x n).
Proof.
  intros m x n i b. rewrite get_nth. revert x i. induction n as [|n IH]; intros x i H.
  - cbn [stretch] in H. now destruct (N.to_nat i).
  - cbn [stretch] in H. destruct (N.to_nat i) as [|k] eqn:E; cbn [nth_error] in H.
    + replace i with 0 by lia. rewrite N.add_0_r. congruence.
    + specialize (IH (x + 1) (N.of_nat k)). rewrite Nnat.Nat2N.id in IH. specialize (IH H).
      replace (x + i) with (x + 1 + N.of_nat k) by lia. exact IH.
Qed.

Lemma stretch_len : forall m n x, length (stretch m x n) = n.
Proof. intros m n. induction n as [|n IH]; intros x; cbn; [|rewrite IH]; reflexivity. Qed.

Lemma ring_contract : contract ring_buf Coh eof_error (sh_size s0) mem ring_rep.
Proof.
  destruct Hs as (Hn & Ht & Hr).
  constructor.
  - intros r a H. destruct (kernel_rep r [] a H) as [H' Ea]. exists (kernel r). split; [|exact H'].
    cbn [pb_chunk ring_buf]. unfold ring_chunk. destruct H' as (_ & Eh & _ & El & _). change (len []) with 0 in El.
    replace (rd_head (kernel r) =? rd_at (kernel r)) with true by (symmetry; apply N.eqb_eq; lia). reflexivity.
  - intros r l a H Hl. destruct (kernel_rep r l a H) as [H' Ea]. cbn [pb_chunk ring_buf]. unfold ring_chunk.
    set (q := kernel r) in *. assert (Hq := H'). destruct H' as ((gone & E1 & E2) & Eh & Hat & El & Esp & Ealn).
    assert (Hlen : 0 < len l) by (destruct l; [congruence|rewrite len_cons; lia]).
    replace (rd_head q =? rd_at q) with false by (symmetry; apply N.eqb_neq; lia).
    destruct (writes_keep (concat gone) s0 Hs) as (_ & B & Z & _ & _ & M). cbv zeta in *. rewrite <- E2 in *.
    rewrite B, Z. set (x := rd_at q mod sh_size s0). assert (Hx : x < sh_size s0) by (apply N.mod_lt; exact Hn).
    set (n := N.min (rd_head q - rd_at q) (sh_size s0 - x)).
    assert (Hn1 : n <= len l) by lia. assert (Hn0 : 0 < n) by lia.
    assert (Est : stretch (sh_mem (rd_shared q)) (sh_base s0 + x) (N.to_nat n) =
                  span (sh_mem s0) (sh_base s0) (sh_size s0) (rd_at q) (N.to_nat n)).
    { unfold x. rewrite <- span_stretch by (trivial; fold x; lia). apply span_same. intros j Hj1 Hj2. apply M; lia. }
    assert (Emem : stretch mem (sh_base s0 + x) (N.to_nat n) =
                  span (sh_mem s0) (sh_base s0) (sh_size s0) (rd_at q) (N.to_nat n)).
    { unfold x. rewrite <- span_stretch by (trivial; fold x; lia). apply span_same. intros j Hj1 Hj2. apply Hm; lia. }
    assert (Hpre : l = span (sh_mem s0) (sh_base s0) (sh_size s0) (rd_at q) (N.to_nat n) ++
                   span (sh_mem s0) (sh_base s0) (sh_size s0) (rd_at q + n) (length l - N.to_nat n)).
    { rewrite Esp at 1. replace (length l) with (N.to_nat n + (length l - N.to_nat n))%nat at 1 by (unfold len in *; lia).
      rewrite span_app, Nnat.N2Nat.id. reflexivity. }
    eexists. exists q. split; [reflexivity|]. split; [exact Hq|]. cbn [chunk_data].
    split; [intros E; apply (f_equal (@length N)) in E; rewrite stretch_len in E; cbn in E; lia|].
    split; [eexists; rewrite Est; exact Hpre|].
    split.
    { cbn [chunk_ok]. split; [rewrite Est, <- Emem; apply mem_at_stretch|]. rewrite Ealn. apply cell_mod. }
    intros k Hk. rewrite Est in Hk. unfold len in Hk. rewrite span_len in Hk.
    cbn [pb_advance ring_buf]. unfold ring_advance. destruct (kernel_rep q l a Hq) as [Hq2 Ea2].
    destruct Hq2 as (G & Eh2 & Hat2 & El2 & Esp2 & Ealn2).
    destruct (N.ltb_spec (rd_head (kernel q) - rd_at (kernel q)) k) as [?|_]; [lia|].
    eexists. split; [reflexivity|]. split; [exact G|]. cbn [rd_head rd_at].
    split; [exact Eh2|]. split; [lia|]. split; [rewrite len_drop; clear - El2 Hk Hn1; lia|].
    split.
    + assert (Hk2 : k <= len l) by (clear - Hk Hn1; lia).
      assert (Ld : length (drop k l) = (length l - N.to_nat k)%nat) by (clear; pose proof (len_drop k l) as E; unfold len in *; lia).
      rewrite Ld. rewrite Esp2 at 1.
      replace (length l) with (N.to_nat k + (length l - N.to_nat k))%nat at 1 by (clear - Hk2; unfold len in *; lia).
      rewrite span_app, Nnat.N2Nat.id. rewrite drop_app_exact; [reflexivity|].
      unfold len. rewrite span_len. lia.
    + rewrite (N.add_mod a), Ealn2, <- N.add_mod by discriminate. now rewrite N.add_assoc.
  - intros r l a h (_ & Eh & Hat & El & _) E. cbn [pb_hint ring_buf] in E. injection E as <-. lia.
  - intros r l a _ E. discriminate.
Qed.
End Source.

(** ** One record, and several *)

Lemma calm_tame : forall pl c f rest a, calm pl c f -> a mod 8 = 0 -> tame pl c Coh a (f ++ rest).
Proof.
  intros pl c f rest a H Ha. unfold calm in H. cbv zeta in H. destruct H as (Hf & H8 & H20 & H9).
  pose proof (frame_min _ _ Hf) as [Hl _].
  unfold tame. cbv zeta. set (o := order_of pl (c_endian c)) in *.
  assert (Et : take 4 (f ++ rest) = take 4 f) by (apply take_app_le; lia). rewrite Et.
  assert (Ha' : a mod word_align pl = 0).
  { unfold word_align. destruct (pl_align pl); cbn [align_bytes].
    all: pose proof (N.div_mod a 8 ltac:(discriminate)) as E; rewrite Ha, N.add_0_r in E; try exact Ha.
    rewrite E. replace (8 * (a / 8)) with (2 * (a / 8) * 4) by (clear; lia). apply N.mod_mul. discriminate. }
  split.
  - intros E. right. specialize (H20 E). unfold two_parts in *. destruct H20 as [P1 P2].
    assert (L : 20 <= len f).
    { destruct (N.le_gt_cases 20 (len f)) as [|L]; [assumption|exfalso]. apply P2.
      assert (len f <= 18).
      { pose proof (N.div_mod (len f) 8 ltac:(discriminate)) as D. rewrite H8 in D.
        assert (len f / 8 < 3) by (apply N.div_lt_upper_bound; lia). lia. }
      rewrite drop_all by lia. now destruct o. }
    rewrite !drop_app_le by lia. rewrite !take_app_le by (rewrite len_drop; lia). now split.
  - destruct (N.eq_dec (from_order o (take 4 f)) 9) as [E|E].
    + destruct (H9 E) as [G|G]; [right; left; exact G|]. right. right. right. repeat split; auto.
    + right. right. right. repeat split; auto. contradiction.
Qed.

(** What a record reads as. *)
Definition reading (pl : platform) (c : config) (f : list N) : perror + (body list * metadata) :=
  outcome (by_record pl (f_body pl) (mkEnv c eof_error) f 0).

(** Borrowed parts are in memory. *)
Definition borrows (pl : platform) (m : memory) (r : result) : Prop :=
  match r with inl _ => True | inr (b, _) => ok_body Coh m pl b end.

Definition agrees (s : shared) (m : memory) : Prop :=
  forall j, sh_tail s <= j -> j < sh_put s -> m (cell s j) = sh_mem s (cell s j).

Section One.
Context (pl : platform) (c : config) (s0 : shared) (ws0 : list (list (list N))).
Context (Hpl : pl_ok pl) (Hs : sound s0) (Hb : sh_base s0 mod 8 = 0) (Hz : sh_size s0 mod 8 = 0).

Lemma ring_one : forall p f rest a, p_cfg p = c -> ring_rep s0 ws0 (p_buf p) (f ++ rest) a -> wf (f ++ rest) ->
  a mod 8 = 0 -> calm pl c f ->
  exists r p', gives pl ring_buf p r p' /\ shown r = reading pl c f /\ (forall m, agrees s0 m -> borrows pl m r) /\
    ring_rep s0 ws0 (p_buf p') rest (a + len f) /\ p_cfg p' = c /\ p_off p' = p_off p + len f.
Proof.
  intros p f rest a Ec Hr Hw Ha Hc. pose proof (calm_tame pl c f rest a Hc Ha) as Ht. destruct Hc as (Hf & _).
  rewrite <- Ec in Ht. pose proof (record_events pl Coh a (mkEnv (p_cfg p) eof_error) (f ++ rest) Ht) as Hev.
  assert (HR : forall m, agrees s0 m -> Ref Coh eof_error 65536 (ring_rep s0 ws0) a (rel_record Coh m pl) (collect pl ring_buf) (f_record pl)).
  { intros m Hm. apply (collect_ref pl ring_buf Coh eof_error (sh_size s0) m); [|exact Hpl]. now apply ring_contract. }
  assert (H0 : agrees s0 (sh_mem s0)) by (intros j _ _; reflexivity).
  pose proof (by_takes pl (f_body pl) c eof_error f rest Hf) as T.
  pose proof (frame_min _ _ Hf) as [H8 Hz'].
  pose proof (by_local pl (f_body pl) c eof_error eof_error f rest [] H8 Hz') as L. rewrite app_nil_r in L.
  unfold reading. change (by_record pl (f_body pl)) with (f_record pl) in *. rewrite <- Ec in T, L |- *.
  destruct (f_record pl (mkEnv (p_cfg p) eof_error) (f ++ rest) 0) as [[b md] l' n ev|e l' n ev] eqn:E;
  destruct (f_record pl (mkEnv (p_cfg p) eof_error) f 0) as [[b2 md2] l2 n2 ev2|e2 l2 n2 ev2];
    try contradiction; destruct L as (L1 & _); destruct T as [-> ->].
  - destruct (run_ok Coh eof_error 65536 (ring_rep s0 ws0) _ _ _ _ _ _ _ _ _ _ _ _ (HR _ H0) Hr Hw E Hev)
      as ([bc md'] & p' & Ep & [[H1 H2] H3] & Hst). cbn [fst snd] in *. subst md'.
    exists (inr (bc, md)), p'. split.
    { intros O V. rewrite record_eq. unfold bind. rewrite Ep. cbn [fst snd]. now rewrite deliver_answer. }
    split; [cbn; congruence|]. split.
    { intros m Hm. destruct (run_ok Coh eof_error 65536 (ring_rep s0 ws0) _ _ _ _ _ _ _ _ _ _ _ _ (HR _ Hm) Hr Hw E Hev)
        as ([bc2 md3] & p2 & Ep2 & [[G1 G2] G3] & _). cbn [fst snd] in *. rewrite Ep in Ep2. injection Ep2 as <- <- <-. exact G2. }
    split; [exact (st_rep _ _ _ _ _ _ _ _ _ Hst)|]. split; [apply (st_cfg _ _ _ _ _ _ _ _ _ Hst)|].
    destruct (st_len _ _ _ _ _ _ _ _ _ Hst) as (k & _ & _ & Ek & Eo). lia.
  - destruct (run_err Coh eof_error 65536 (ring_rep s0 ws0) _ _ _ _ _ _ _ _ _ _ _ _ (HR _ H0) Hr Hw E Hev) as (p' & Ep & Hst).
    exists (inl e), p'. split.
    { intros O V. rewrite record_eq. unfold bind. now rewrite Ep. }
    split; [cbn; congruence|]. split; [intros m _; exact Logic.I|].
    split; [exact (st_rep _ _ _ _ _ _ _ _ _ Hst)|]. split; [apply (st_cfg _ _ _ _ _ _ _ _ _ Hst)|].
    destruct (st_len _ _ _ _ _ _ _ _ _ Hst) as (k & _ & _ & Ek & Eo). lia.
Qed.

Lemma ring_end : forall p a, p_cfg p = c -> ring_rep s0 ws0 (p_buf p) [] a ->
  exists p', gives pl ring_buf p (inl eof_error) p' /\ ring_rep s0 ws0 (p_buf p') [] a /\ p_cfg p' = c /\ p_off p' = p_off p.
Proof.
  intros p a Ec Hr.
  assert (H0 : agrees s0 (sh_mem s0)) by (intros j _ _; reflexivity).
  assert (HR : Ref Coh eof_error 65536 (ring_rep s0 ws0) a (rel_record Coh (sh_mem s0) pl) (collect pl ring_buf) (f_record pl)).
  { apply (collect_ref pl ring_buf Coh eof_error (sh_size s0) (sh_mem s0)); [|exact Hpl]. now apply ring_contract. }
  assert (Hw : wf []) by (split; [constructor|reflexivity]).
  assert (E : exists ev, f_record pl (mkEnv (p_cfg p) eof_error) [] 0 = FErr eof_error [] 0 ev /\ Forall (ev_ok Coh a) ev).
  { eexists. split; [reflexivity|]. repeat constructor. }
  destruct E as (ev & E & Hev).
  destruct (run_err Coh eof_error 65536 (ring_rep s0 ws0) _ _ _ _ _ _ _ _ _ _ _ _ HR Hr Hw E Hev) as (p' & Ep & Hst).
  exists p'. split.
  { intros O V. rewrite record_eq. unfold bind. now rewrite Ep. }
  split; [|split; [rewrite <- Ec; apply (st_cfg _ _ _ _ _ _ _ _ _ Hst)|]].
  - pose proof (st_rep _ _ _ _ _ _ _ _ _ Hst) as G. now rewrite N.add_0_r in G.
  - destruct (st_len _ _ _ _ _ _ _ _ _ Hst) as (k & _ & _ & Ek & Eo). lia.
Qed.

Lemma ring_run : forall k q p a, p_cfg p = c -> ring_rep s0 ws0 (p_buf p) (concat q) a -> wf (concat q) ->
  a mod 8 = 0 -> Forall (calm pl c) q ->
  exists xs p', length xs = k /\ run_gives pl ring_buf p xs p' /\
    map shown xs = map (fun o => match o with Some f => reading pl c f | None => inl eof_error end) (first k q) /\
    Forall (fun r => forall m, agrees s0 m -> borrows pl m r) xs /\
    ring_rep s0 ws0 (p_buf p') (concat (skipn (Nat.min k (length q)) q)) (a + len (concat (firstn k q))) /\
    p_off p' = p_off p + len (concat (firstn k q)).
Proof.
  induction k as [|k IH]; intros q p a Ec Hr Hw Ha Hq.
  - exists [], p. cbn [first map run_gives firstn concat Nat.min skipn]. change (len (@nil N)) with 0. rewrite !N.add_0_r.
    repeat (split; [first [reflexivity|exact Hr|constructor]|]). reflexivity.
  - destruct q as [|f q].
    + destruct (ring_end p a Ec Hr) as (p1 & G & Hr1 & Ec1 & Eo1).
      destruct (IH [] p1 a Ec1 Hr1 Hw Ha Hq) as (xs & p' & E1 & E2 & E3 & E4 & E5 & E6).
      exists (inl eof_error :: xs), p'. split; [cbn; now rewrite E1|]. split; [now exists p1|].
      split; [cbn [map first shown]; now rewrite E3|]. split; [constructor; [intros; exact Logic.I|exact E4]|].
      rewrite firstn_nil in *. cbn [length] in *. rewrite PeanoNat.Nat.min_0_r in *. split; [exact E5|]. now rewrite <- Eo1.
    + pose proof (Forall_inv Hq) as Hq1. pose proof (Forall_inv_tail Hq) as Hq2. cbn [concat] in Hr, Hw.
      destruct (ring_one p f (concat q) a Ec Hr Hw Ha Hq1) as (r & p1 & G1 & G2 & G3 & G4 & G5 & G6).
      assert (Ha1 : (a + len f) mod 8 = 0).
      { destruct Hq1 as (_ & H8 & _). rewrite N.add_mod, Ha, H8 by discriminate. reflexivity. }
      assert (Hw1 : wf (concat q)).
      { destruct Hw as [W1 W2]. rewrite len_app in W2. split; [now apply Forall_app in W1|lia]. }
      destruct (IH q p1 (a + len f) G5 G4 Hw1 Ha1 Hq2) as (xs & p' & E1 & E2 & E3 & E4 & E5 & E6).
      exists (r :: xs), p'. split; [cbn; now rewrite E1|]. split; [now exists p1|].
      split; [cbn [map first]; now rewrite E3, G2|]. split; [now constructor|].
      cbn [firstn concat length Nat.min skipn]. rewrite len_app, N.add_assoc. split; [exact E5|]. rewrite E6, G6. lia.
Qed.
End One.

(** ** Sessions *)

Lemma admits_app : forall size ws q, exists more, fold_left (admit_to size) ws q = q ++ more /\ incl more ws.
Proof.
  intros size ws. induction ws as [|f ws IH]; intros q; cbn [fold_left].
  - exists []. rewrite app_nil_r. split; [reflexivity|intros x []].
  - destruct (IH (admit_to size q f)) as (more & E & I). rewrite E. unfold admit_to.
    destruct (size <? len (concat q) + len f).
    + exists more. split; [reflexivity|]. intros x H. right. now apply I.
    + exists (f :: more). split; [rewrite <- app_assoc; reflexivity|]. intros x [<-|H]; [now left|right; now apply I].
Qed.

Lemma calm_words : forall pl c q, Forall (calm pl c) q -> len (concat q) mod 8 = 0.
Proof.
  intros pl c q H. induction H as [|f q Hf _ IH]; [reflexivity|]. cbn [concat]. destruct Hf as (_ & H8 & _).
  rewrite len_app, N.add_mod, H8, IH by discriminate. reflexivity.
Qed.

Lemma calm_bytes : forall pl c q, Forall (calm pl c) q -> bytes (concat q).
Proof.
  intros pl c q H. induction H as [|f q Hf _ IH]; [constructor|]. cbn [concat]. destruct Hf as ((B & _) & _).
  apply Forall_app. now split.
Qed.

Lemma opened : forall s ws q, holds s q -> ring_rep s ws (open_ring s ws) (concat q) (sh_base s + sh_tail s).
Proof.
  intros s ws q (Hs & Hp & Hm). unfold open_ring. split; [exists []; now split|]. cbn [rd_head rd_at].
  split; [reflexivity|]. split; [apply N.le_refl|]. split; [now symmetry|]. split; [now symmetry|reflexivity].
Qed.

Lemma app_len_inv : forall A (a b c d : list A), length a = length c -> a ++ b = c ++ d -> a = c /\ b = d.
Proof.
  intros A a. induction a as [|x a IH]; intros b [|y c] d H E; try discriminate; [now split|].
  injection E as -> E. injection H as H. destruct (IH b c d H E) as [-> ->]. now split.
Qed.

Lemma closed : forall s ws q n r a, holds s q -> (n <= length q)%nat -> ring_rep s ws r (concat (skipn n q)) a ->
  holds (close_ring r) (skipn n (fold_left (admit_to (sh_size s)) (concat ws) q)) /\
  sh_base (close_ring r) = sh_base s /\ sh_size (close_ring r) = sh_size s /\
  sh_tail (close_ring r) = sh_tail s + len (concat (firstn n q)).
Proof.
  intros s ws q n r a H Hn ((gone & E1 & E2) & _ & Hat & El & _).
  unfold close_ring. cbv zeta. rewrite E2. rewrite <- fold_left_app, <- concat_app, <- E1.
  set (w := concat ws). pose proof (writes_hold w s q H) as (S1 & P1 & M1).
  destruct (writes_keep w s (proj1 H)) as (_ & B & Z & T & P & _). cbv zeta in *.
  set (s' := fold_left write w s) in *. destruct (admits_app (sh_size s) w q) as (more & Eq & _). rewrite Eq in *.
  cbn [sh_base sh_size sh_tail]. destruct H as (Hs & Hp & _).
  rewrite <- (firstn_skipn n q) in Hp, P1, M1. rewrite !concat_app, ?len_app in Hp.
  rewrite !concat_app, !len_app in P1. rewrite !concat_app, <- app_assoc, app_length, span_app in M1.
  assert (Ea : rd_at r = sh_tail s + len (concat (firstn n q))) by (clear - El Hp; lia).
  split; [|now repeat split]. unfold holds, sound in *. cbn [sh_base sh_size sh_tail sh_put sh_mem].
  rewrite skipn_app. replace (n - length q)%nat with O by lia. cbn [skipn].
  rewrite concat_app, len_app. rewrite T in *.
  split; [split; [apply S1|]; clear - Ea P1 S1; lia|]. split; [clear - Ea P1; lia|].
  apply app_len_inv in M1; [|apply span_len]. destruct M1 as [_ M1]. rewrite <- M1 at 2.
  rewrite Ea. reflexivity.
Qed.

Lemma session_served : forall pl c es s q, pl_ok pl -> holds s q -> laid_out s ->
  Forall (calm pl c) q -> Forall (calm pl c) (written es) ->
  exists rs, session pl c s es rs /\
    map (map shown) rs =
    map (map (fun o => match o with Some f => reading pl c f | None => inl eof_error end)) (served (sh_size s) q es).
Proof.
  intros pl c es. induction es as [|[f|k ws] es IH]; intros s q Hpl Hh Hl Hq Hw.
  - exists []. now split.
  - cbn [session served]. unfold written in Hw. cbn [map concat] in Hw. apply Forall_app in Hw. destruct Hw as [Hf Hw].
    inversion Hf as [|? ? Hf1 _]; subst. destruct (write_keeps s f (proj1 Hh)) as (_ & B & Z & T & _).
    rewrite <- Z. apply IH; try assumption.
    + rewrite Z. now apply write_holds.
    + destruct Hl as (L1 & L2 & L3 & L4). unfold laid_out. rewrite B, Z, T. now repeat split.
    + unfold admit_to. destruct (_ <? _); [exact Hq|]. apply Forall_app. split; [exact Hq|now constructor].
  - cbn [session served]. unfold written in Hw. cbn [map concat] in Hw. apply Forall_app in Hw. destruct Hw as [Hf Hw].
    destruct Hl as (L1 & L2 & L3 & L4).
    assert (Hwf : wf (concat q)).
    { split; [now apply calm_bytes in Hq|]. destruct Hh as ((_ & _ & G) & E & _). clear - L3 G E. lia. }
    assert (Ha : (sh_base s + sh_tail s) mod 8 = 0) by (rewrite N.add_mod, L1, L4 by discriminate; reflexivity).
    destruct (ring_run pl c s ws Hpl (proj1 Hh) L1 L2 k q (new_parser (open_ring s ws) c) (sh_base s + sh_tail s) eq_refl
      (opened s ws q Hh) Hwf Ha Hq) as (xs & p' & E1 & E2 & E3 & _ & E5 & _).
    set (n := Nat.min k (length q)) in *.
    destruct (closed s ws q n (p_buf p') _ Hh ltac:(unfold n; lia) E5) as (C1 & C2 & C3 & C4).
    set (q' := skipn n (fold_left (admit_to (sh_size s)) (concat ws) q)) in *.
    destruct (IH (close_ring (p_buf p')) q' Hpl C1) as (rs & R1 & R2); try assumption.
    + unfold laid_out. rewrite C2, C3, C4. repeat split; try assumption.
      assert (Hn : Forall (calm pl c) (firstn n q)).
      { rewrite <- (firstn_skipn n q) in Hq. now apply Forall_app in Hq. }
      rewrite N.add_mod, L4, (calm_words _ _ _ Hn) by discriminate. reflexivity.
    + destruct (admits_app (sh_size s) (concat ws) q) as (more & Eq & I). unfold q'. rewrite Eq.
      assert (G : Forall (calm pl c) (q ++ more)).
      { apply Forall_app. split; [exact Hq|]. apply Forall_forall. intros x Hx. rewrite Forall_forall in Hf. apply Hf, I, Hx. }
      rewrite <- (firstn_skipn n (q ++ more)) in G. now apply Forall_app in G.
    + exists (xs :: rs). split; [now exists xs, p', rs|]. cbn [map]. rewrite E3, R2, C3. reflexivity.
Qed.
