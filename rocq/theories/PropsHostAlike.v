(** C74 without the conditions of C03: sources which lend nothing, and memory of one alignment, on two hosts. *)
From Coq Require Import NArith List Bool Lia.
From Verif Require Import Base BaseFacts Types Platform Config Buf Parser Contract Flat Refine Instances.
From Verif Require Import Records Sample Record Views RefFrame RefTop Wire Codec Spec SameFacts Copied Placed Hosts HostsAlike.
From Verif Require Import ExData PropsFrame PropsSame PropsAccept PropsBorrow PropsHost.
Import ListNotations.
Open Scope N_scope.

(** Both sources copy; or both lend one piece of memory, to hosts which align alike, and it is aligned alike. *)
Definition kept_alike (pl1 pl2 : platform) (mo : mode) (a1 a2 : N) : Prop :=
  mo = NoExt \/ (mo = Whole /\ word_align pl1 = word_align pl2 /\ a1 mod word_align pl1 = a2 mod word_align pl1).

(** What one call makes of both, whichever flat parser says so. *)
Local Definition told_by (pl : platform) {S : Type} (PB : parsebuf S) (mo : mode) (fin : perror) (cap : N) (mem : memory)
  (p : parser S) (l : list N) (a : N) (x : fout (body list * metadata)) : Prop :=
  match x with
  | FOk (b, md) _ n _ => exists bc p', gives pl PB p (inr (bc, md)) p' /\ view_body bc = b /\ moved PB mo fin cap mem l a p n p'
  | FErr e _ n _ => exists p', gives pl PB p (inl e) p' /\ moved PB mo fin cap mem l a p n p'
  end.

Local Lemma both_told :
  forall pl1 pl2 fin l mo strict S1 (PB1 : parsebuf S1) cap1 mem1 p1 a1 S2 (PB2 : parsebuf S2) cap2 mem2 p2 a2,
  pl_ok pl1 -> pl_ok pl2 -> pl_bits pl2 <= pl_bits pl1 -> same_data pl1 pl2 (p_cfg p1) (p_cfg p2) ->
  (at_home pl2 (p_cfg p2) -> at_home pl1 (p_cfg p1)) ->
  (strict = true -> pl_bits pl1 = pl_bits pl2) ->
  (strict = true \/ mo = Whole -> at_home pl1 (p_cfg p1) -> at_home pl2 (p_cfg p2)) ->
  kept_alike pl1 pl2 mo a1 a2 ->
  source PB1 mo fin cap1 mem1 p1 l a1 -> source PB2 mo fin cap2 mem2 p2 l a2 ->
  exists x1 x2, told_by pl1 PB1 mo fin cap1 mem1 p1 l a1 x1 /\ told_by pl2 PB2 mo fin cap2 mem2 p2 l a2 x2 /\
    match x1, x2 with
    | FOk x l1 k _, FOk y l2 k' _ => x = y /\ l1 = l2 /\ k = k'
    | FErr e l1 k _, FErr e' l2 k' _ => strict = true -> e = e' /\ l1 = l2 /\ k = k'
    | FErr _ _ _ _, FOk _ _ _ _ => strict = false
    | FOk _ _ _ _, FErr _ _ _ _ => False
    end.
Proof.
  intros pl1 pl2 fin l mo strict S1 PB1 cap1 mem1 p1 a1 S2 PB2 cap2 mem2 p2 a2 Hp1 Hp2 Eb Hc Hh Hs Hh2 Hk H1 H2.
  pose proof (same_alike _ _ _ _ Hc) as Ha. assert (Hb : bytes l) by (destruct H1 as (? & _ & _ & Hwf); apply Hwf).
  set (o := order_of pl1 (c_endian (p_cfg p1))) in *.
  assert (Ho : order_of pl2 (c_endian (p_cfg p2)) = o) by apply Ha.
  assert (N1 : order_eqb o (pl_host pl2) = true -> order_eqb o (pl_host pl1) = true).
  { intros E. apply home_eqb, Hh, home_eqb. now rewrite Ho. }
  assert (N2 : strict = true \/ mo = Whole -> order_eqb o (pl_host pl1) = order_eqb o (pl_host pl2)).
  { intros E. specialize (Hh2 E). destruct (order_eqb o (pl_host pl1)) eqn:E1.
    - symmetry. rewrite <- Ho. apply home_eqb, Hh2, home_eqb. exact E1.
    - destruct (order_eqb o (pl_host pl2)) eqn:E2; [|reflexivity]. discriminate (N1 eq_refl). }
  destruct Hk as [->|(-> & Ew & Hal)].
  - exists (f_record_copied pl1 (mkEnv (p_cfg p1) fin) l 0), (f_record_copied pl2 (mkEnv (p_cfg p2) fin) l 0).
    split; [exact (gives_copied pl1 S1 PB1 fin cap1 mem1 p1 l a1 Hp1 H1)|].
    split; [exact (gives_copied pl2 S2 PB2 fin cap2 mem2 p2 l a2 Hp2 H2)|].
    pose proof (near_record_copied pl1 pl2 o strict (len l) Hp2 N1 Eb (fun E => conj (N2 (or_introl E)) (Hs E))
                  (mkEnv (p_cfg p1) fin) (mkEnv (p_cfg p2) fin) l 0 (conj Ha eq_refl) Hb (N.le_refl _)) as X.
    destruct (f_record_copied pl1 _ l 0), (f_record_copied pl2 _ l 0); try exact X. now destruct X as (? & ? & _ & _ & ?).
  - exists (g_record pl1 (bad_at pl1 a1) (mkEnv (p_cfg p1) fin) l 0), (g_record pl2 (bad_at pl1 a1) (mkEnv (p_cfg p2) fin) l 0).
    split; [exact (gives_whole pl1 S1 PB1 fin cap1 mem1 p1 l a1 a1 Hp1 H1 eq_refl)|].
    split.
    { rewrite Ew in Hal.
      pose proof (gives_whole pl2 S2 PB2 fin cap2 mem2 p2 l a2 a1 Hp2 H2 Hal) as G.
      unfold bad_at in *. rewrite Ew. exact G. }
    pose proof (near_record_placed pl1 pl2 o strict (bad_at pl1 a1) (len l) Hp2 (N2 (or_intror eq_refl)) Eb Hs
                  (mkEnv (p_cfg p1) fin) (mkEnv (p_cfg p2) fin) l 0 (conj Ha eq_refl) Hb (N.le_refl _)) as X.
    destruct (g_record pl1 _ _ l 0), (g_record pl2 _ _ l 0); try exact X. now destruct X as (? & ? & _ & _ & ?).
Qed.

(** Hosts of the same width both of which, or neither, have the byte order of the data: any bytes are read alike, and
    refused for the same reason. *)
Theorem C74_alike :
  forall pl1 pl2 fin l mo S1 (PB1 : parsebuf S1) cap1 mem1 p1 a1 S2 (PB2 : parsebuf S2) cap2 mem2 p2 a2,
  pl_ok pl1 -> pl_ok pl2 -> pl_bits pl1 = pl_bits pl2 ->
  same_data pl1 pl2 (p_cfg p1) (p_cfg p2) -> (at_home pl1 (p_cfg p1) <-> at_home pl2 (p_cfg p2)) ->
  kept_alike pl1 pl2 mo a1 a2 ->
  source PB1 mo fin cap1 mem1 p1 l a1 -> source PB2 mo fin cap2 mem2 p2 l a2 ->
  exists n r1 r2 p1' p2',
    gives pl1 PB1 p1 r1 p1' /\ gives pl2 PB2 p2 r2 p2' /\ same_result r1 r2 /\
    moved PB1 mo fin cap1 mem1 l a1 p1 n p1' /\ moved PB2 mo fin cap2 mem2 l a2 p2 n p2'.
Proof.
  intros pl1 pl2 fin l mo S1 PB1 cap1 mem1 p1 a1 S2 PB2 cap2 mem2 p2 a2 Hp1 Hp2 Eb Hc Hh Hk H1 H2.
  destruct (both_told pl1 pl2 fin l mo true S1 PB1 cap1 mem1 p1 a1 S2 PB2 cap2 mem2 p2 a2 Hp1 Hp2
              ltac:(rewrite Eb; apply N.le_refl) Hc (proj2 Hh) (fun _ => Eb) (fun _ => proj1 Hh) Hk H1 H2)
    as ([[b1 m1] l1 n ev|e l1 n ev] & [[b2 m2] l2 n2 ev2|e2 l2 n2 ev2] & T1 & T2 & X); try contradiction; try discriminate X.
  - destruct X as (X & _ & <-). injection X as <- <-. destruct T1 as (x1 & p1' & G1 & V1 & M1), T2 as (x2 & p2' & G2 & V2 & M2).
    exists n, (inr (x1, m1)), (inr (x2, m1)), p1', p2'. repeat split; try assumption; try apply M1; try apply M2. congruence.
  - destruct (X eq_refl) as (<- & _ & <-). destruct T1 as (p1' & G1 & M1), T2 as (p2' & G2 & M2).
    exists n, (inl e), (inl e), p1', p2'. repeat split; try assumption; try apply M1; try apply M2.
Qed.

Local Lemma mod_move : forall k a a' n, a mod k = a' mod k -> k <> 0 -> (a + n) mod k = (a' + n) mod k.
Proof. intros k a a' n H Hk. rewrite <- (N.add_mod_idemp_l a), <- (N.add_mod_idemp_l a') by exact Hk. now rewrite H. Qed.

Local Lemma kept_on : forall pl1 pl2 mo a1 a2 n, kept_alike pl1 pl2 mo a1 a2 -> kept_alike pl1 pl2 mo (a1 + n) (a2 + n).
Proof.
  intros pl1 pl2 mo a1 a2 n [->|(-> & Ew & Ha)]; [now left|]. right. repeat split; [exact Ew|].
  apply mod_move; [exact Ha|]. unfold word_align. now destruct (pl_align pl1).
Qed.

(** A whole recording, damaged or not. *)
Theorem C74_recording_alike :
  forall pl1 pl2 fin mo k l S1 (PB1 : parsebuf S1) cap1 mem1 p1 a1 S2 (PB2 : parsebuf S2) cap2 mem2 p2 a2,
  pl_ok pl1 -> pl_ok pl2 -> pl_bits pl1 = pl_bits pl2 ->
  same_data pl1 pl2 (p_cfg p1) (p_cfg p2) -> (at_home pl1 (p_cfg p1) <-> at_home pl2 (p_cfg p2)) ->
  kept_alike pl1 pl2 mo a1 a2 ->
  source PB1 mo fin cap1 mem1 p1 l a1 -> source PB2 mo fin cap2 mem2 p2 l a2 ->
  exists n rs1 rs2 p1' p2', length rs1 = k /\
    run_gives pl1 PB1 p1 rs1 p1' /\ run_gives pl2 PB2 p2 rs2 p2' /\ Forall2 same_result rs1 rs2 /\
    moved PB1 mo fin cap1 mem1 l a1 p1 n p1' /\ moved PB2 mo fin cap2 mem2 l a2 p2 n p2'.
Proof.
  intros pl1 pl2 fin mo k. induction k as [|k IH];
    intros l S1 PB1 cap1 mem1 p1 a1 S2 PB2 cap2 mem2 p2 a2 Hp1 Hp2 Eb Hc Hh Hk H1 H2.
  - exists 0, [], [], p1, p2. split; [reflexivity|]. split; [reflexivity|]. split; [reflexivity|].
    split; [constructor|]. unfold moved. rewrite drop_0, !N.add_0_r.
    split; (split; [lia|]; split; [assumption|]; split; reflexivity).
  - destruct (C74_alike pl1 pl2 fin l mo S1 PB1 cap1 mem1 p1 a1 S2 PB2 cap2 mem2 p2 a2 Hp1 Hp2 Eb Hc Hh Hk H1 H2)
      as (n & r1 & r2 & q1 & q2 & G1 & G2 & Hr & (L1 & M1 & C1 & O1) & (L2 & M2 & C2 & O2)).
    destruct (IH (drop n l) S1 PB1 cap1 mem1 q1 (a1 + n) S2 PB2 cap2 mem2 q2 (a2 + n) Hp1 Hp2 Eb
      ltac:(rewrite C1, C2; exact Hc) ltac:(rewrite C1, C2; exact Hh) (kept_on _ _ _ _ _ n Hk) M1 M2)
      as (n' & rs1 & rs2 & p1' & p2' & Hl & R1 & R2 & Hs & (L1' & M1' & C1' & O1') & (L2' & M2' & C2' & O2')).
    rewrite len_drop in L1', L2'. rewrite drop_drop in M1', M2'.
    exists (n + n'), (r1 :: rs1), (r2 :: rs2), p1', p2'. split; [cbn; congruence|].
    split; [exists q1; auto|]. split; [exists q2; auto|]. split; [now constructor|].
    split; (split; [lia|]; split; [rewrite N.add_assoc; assumption|]; split; [congruence|lia]).
Qed.

(** What a host at least as wide reads, and at home if the other is, the other reads too; in memory both or neither
    have to be at home. *)
Theorem C74_elsewhere_alike :
  forall pl1 pl2 fin l mo S1 (PB1 : parsebuf S1) cap1 mem1 p1 a1 S2 (PB2 : parsebuf S2) cap2 mem2 p2 a2 b md p1',
  pl_ok pl1 -> pl_ok pl2 -> pl_bits pl2 <= pl_bits pl1 ->
  same_data pl1 pl2 (p_cfg p1) (p_cfg p2) -> (at_home pl2 (p_cfg p2) -> at_home pl1 (p_cfg p1)) ->
  (mo = Whole -> at_home pl1 (p_cfg p1) -> at_home pl2 (p_cfg p2)) ->
  kept_alike pl1 pl2 mo a1 a2 ->
  source PB1 mo fin cap1 mem1 p1 l a1 -> source PB2 mo fin cap2 mem2 p2 l a2 ->
  gives pl1 PB1 p1 (inr (b, md)) p1' ->
  exists n b' p2', gives pl2 PB2 p2 (inr (b', md)) p2' /\ view_body b' = view_body b /\
    moved PB1 mo fin cap1 mem1 l a1 p1 n p1' /\ moved PB2 mo fin cap2 mem2 l a2 p2 n p2'.
Proof.
  intros pl1 pl2 fin l mo S1 PB1 cap1 mem1 p1 a1 S2 PB2 cap2 mem2 p2 a2 b md p1' Hp1 Hp2 Eb Hc Hh Hw Hk H1 H2 G.
  destruct (both_told pl1 pl2 fin l mo false S1 PB1 cap1 mem1 p1 a1 S2 PB2 cap2 mem2 p2 a2 Hp1 Hp2
              Eb Hc Hh ltac:(discriminate) ltac:(intros [E|E]; [discriminate|exact (Hw E)]) Hk H1 H2)
    as ([[b1 m1] l1 n ev|e l1 n ev] & x2 & T1 & T2 & X).
  - destruct T1 as (x1 & q1 & G1 & V1 & M1). destruct (gives_once _ _ _ _ _ _ _ _ G G1) as [E <-]. injection E as <- <-.
    destruct x2 as [[b2 m2] l2 n2 ev2|e2 l2 n2 ev2]; [|contradiction].
    destruct X as (X & _ & <-). injection X as <- <-. destruct T2 as (x2 & p2' & G2 & V2 & M2).
    exists n, x2, p2'. repeat split; try assumption; try apply M1; try apply M2. congruence.
  - destruct T1 as (q1 & G1 & _). destruct (gives_once _ _ _ _ _ _ _ _ G G1) as [E _]. discriminate.
Qed.

Theorem C74_stream_alike :
  forall pl1 pl2 fin mo xs l S1 (PB1 : parsebuf S1) cap1 mem1 p1 a1 S2 (PB2 : parsebuf S2) cap2 mem2 p2 a2 p1',
  pl_ok pl1 -> pl_ok pl2 -> pl_bits pl2 <= pl_bits pl1 ->
  same_data pl1 pl2 (p_cfg p1) (p_cfg p2) -> (at_home pl2 (p_cfg p2) -> at_home pl1 (p_cfg p1)) ->
  (mo = Whole -> at_home pl1 (p_cfg p1) -> at_home pl2 (p_cfg p2)) ->
  kept_alike pl1 pl2 mo a1 a2 ->
  source PB1 mo fin cap1 mem1 p1 l a1 -> source PB2 mo fin cap2 mem2 p2 l a2 ->
  gives_all pl1 PB1 p1 xs p1' ->
  exists n ys p2', gives_all pl2 PB2 p2 ys p2' /\ map seen ys = map seen xs /\
    moved PB1 mo fin cap1 mem1 l a1 p1 n p1' /\ moved PB2 mo fin cap2 mem2 l a2 p2 n p2'.
Proof.
  intros pl1 pl2 fin mo xs. induction xs as [|[b md] xs IH];
    intros l S1 PB1 cap1 mem1 p1 a1 S2 PB2 cap2 mem2 p2 a2 p1' Hp1 Hp2 Eb Hc Hh Hw Hk H1 H2 G; inversion G as [|? ? q1 ? ? Gx Gs]; subst.
  - exists 0, [], p2. split; [constructor|]. split; [reflexivity|]. unfold moved. rewrite drop_0, !N.add_0_r.
    split; (split; [lia|]; split; [assumption|]; split; reflexivity).
  - destruct (C74_elsewhere_alike pl1 pl2 fin l mo S1 PB1 cap1 mem1 p1 a1 S2 PB2 cap2 mem2 p2 a2 b md q1 Hp1 Hp2 Eb Hc Hh Hw Hk H1 H2)
      as (n & b' & q2 & G2 & Hv & (L1 & M1 & C1 & O1) & (L2 & M2 & C2 & O2)); [assumption|].
    destruct (IH (drop n l) S1 PB1 cap1 mem1 q1 (a1 + n) S2 PB2 cap2 mem2 q2 (a2 + n) p1' Hp1 Hp2 Eb
      ltac:(rewrite C1, C2; exact Hc) ltac:(rewrite C1, C2; exact Hh) ltac:(rewrite C1, C2; exact Hw) (kept_on _ _ _ _ _ n Hk) M1 M2)
      as (n' & ys & p2' & R2 & Hs & (L1' & M1' & C1' & O1') & (L2' & M2' & C2' & O2')); [assumption|].
    rewrite len_drop in L1', L2'. rewrite drop_drop in M1', M2'.
    exists (n + n'), ((b', md) :: ys), p2'. split; [econstructor; eassumption|].
    split; [cbn [map]; unfold seen at 1 3; cbn [fst snd]; congruence|].
    split; (split; [lia|]; split; [rewrite N.add_assoc; assumption|]; split; [congruence|lia]).
Qed.

(** The alignment of words has to be the same: hosts of one width and byte order, the same memory at the same address,
    and the record is read by the one which aligns words to 4 bytes and refused by the one which aligns them to 8. *)
Definition plarm : platform := mkPlatform LE 32 Align8.

Theorem C74_alignment_refuted : exists l a mem,
  pl_ok pl32 /\ pl_ok plarm /\ pl_bits pl32 = pl_bits plarm /\ pl_host pl32 = pl_host plarm /\
  source slice_buf Whole eof_error (len l) mem (on_slice a l (chain_cfg Native)) l a /\
  (exists s, fst (parse_record_enum pl32 slice_buf (on_slice a l (chain_cfg Native))) = Ok (RBody (BSample s)) /\
     option_map cow_list (s_callchain s) = Some [77]) /\
  fst (parse_record_enum plarm slice_buf (on_slice a l (chain_cfg Native))) = Err eof_error.
Proof.
  set (l := chain_record 1 (w64 LE 77)). exists l, 4100, (memory_of 4100 l).
  split; [now left|]. split; [now left|]. split; [reflexivity|]. split; [reflexivity|].
  split. { apply slice_source; [| | |apply memory_of_at]; try (vm_compute; congruence). repeat constructor. }
  split; [|vm_compute; reflexivity]. eexists. split; vm_compute; reflexivity.
Qed.

(** A TEXT_POKE which C03 leaves out and a sample: from readers, on a wide host at home and a narrow one which is not; and
    from memory, at addresses which agree in no more than their alignment and are wrong for the sample. *)
Definition plbe32 : platform := mkPlatform BE 32 Align8.
Definition poke_then_chain : list N := poke_bytes ++ chain_record 1 (w64 LE 77).

Example C74_alike_example :
  let p e := reader_of [take 11 poke_then_chain; drop 11 poke_then_chain] (chain_cfg e) in
  let q a e := on_slice a poke_then_chain (chain_cfg e) in
  pl_ok pl64 /\ pl_ok plbe32 /\ pl_ok plarm /\ pl_bits plarm <= pl_bits pl64 /\
  same_data pl64 plbe32 (chain_cfg Native) (chain_cfg Little) /\ same_data pl64 plarm (chain_cfg Little) (chain_cfg Native) /\
  at_home pl64 (chain_cfg Native) /\ ~ at_home plbe32 (chain_cfg Little) /\ at_home plarm (chain_cfg Native) /\
  kept_alike pl64 plbe32 NoExt 0 0 /\ kept_alike pl64 plarm Whole 4100 8196 /\ ~ kept_alike pl64 pl32 Whole 4100 4100 /\
  (forall e cap mem, 16384 <= cap -> source bufreader_buf NoExt eof_error cap mem (p e) poke_then_chain 0) /\
  (forall a e, a < 10000 -> source slice_buf Whole eof_error 65536 (memory_of a poke_then_chain) (q a e) poke_then_chain a) /\
  (exists t s p1' p2' md md', 
    gives_all pl64 bufreader_buf (p Native) [(BTextPoke t, md); (BSample s, md')] p1' /\
    gives_all plbe32 bufreader_buf (p Little) [(BTextPoke t, md); (BSample s, md')] p2' /\
    cow_list (tp_old t) = [1; 2; 3; 4] /\ s_callchain s = Some (Owned [77])) /\
  (exists t t' p1' p2' md,
    run_gives pl64 slice_buf (q 4100 Little) [inr (BTextPoke t, md); inl eof_error] p1' /\
    run_gives plarm slice_buf (q 8196 Native) [inr (BTextPoke t', md); inl eof_error] p2' /\
    view_body (BTextPoke t) = view_body (BTextPoke t') /\ t <> t').
Proof.
  cbv zeta. split; [now right|]. split; [now left|]. split; [now left|]. split; [discriminate|].
  split; [repeat split|]. split; [repeat split|]. split; [reflexivity|]. split; [discriminate|]. split; [reflexivity|].
  split; [now left|]. split; [right; repeat split|].
  split. { intros [H|(_ & H & _)]; discriminate. }
  split; [|split; [|split]].
  - intros e cap mem Hc.
    pose proof (reader_source [] [take 11 poke_then_chain; drop 11 poke_then_chain] None (chain_cfg e) cap mem Hc) as H.
    change ([] ++ concat [take 11 poke_then_chain; drop 11 poke_then_chain]) with poke_then_chain in H.
    apply H; [vm_compute; repeat constructor|reflexivity|]. repeat constructor; discriminate.
  - intros a e Ha. apply slice_source; [| | |apply memory_of_at]; try (vm_compute; congruence).
    vm_compute; repeat constructor.
  - do 6 eexists. split; [eapply gives_more; [apply collect_gives; vm_compute; reflexivity|];
      eapply gives_more; [apply collect_gives; vm_compute; reflexivity|constructor]|].
    split; [eapply gives_more; [apply collect_gives; vm_compute; reflexivity|];
      eapply gives_more; [apply collect_gives; vm_compute; reflexivity|constructor]|].
    split; reflexivity.
  - do 5 eexists. split; [eexists; split; [apply collect_gives; vm_compute; reflexivity|];
      eexists; split; [|reflexivity]|].
    2: split; [eexists; split; [apply collect_gives; vm_compute; reflexivity|];
      eexists; split; [|reflexivity]|].
    all: try (intros O V; vm_compute; reflexivity).
    split; [reflexivity|discriminate].
Qed.

Print Assumptions C74_alike.
Print Assumptions C74_recording_alike.
Print Assumptions C74_elsewhere_alike.
Print Assumptions C74_stream_alike.
Print Assumptions C74_alignment_refuted.
