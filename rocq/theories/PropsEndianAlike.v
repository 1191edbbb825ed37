(** C86 without the condition on TEXT_POKE: between sources which lend nothing, and between memory anywhere. *)
From Coq Require Import NArith List Bool Lia.
From Verif Require Import Base BaseFacts Types Platform Config Buf Parser Contract Flat Refine Instances.
From Verif Require Import Records Sample Record Views RefFrame RefTop Wire Codec Spec SameFacts Endian EndianFacts.
From Verif Require Import ExData PropsFrame PropsSafe PropsSame PropsAccept PropsBorrow PropsHost PropsHostAlike PropsEndian.
Import ListNotations.
Open Scope N_scope.

(** With the default of [is_native], from sources of one kind; memory may be aligned in any way. *)
Theorem C86_anywhere_alike :
  forall E pl o l fin mo S1 (PB1 : parsebuf S1) cap1 mem1 p1 a1 S2 (PB2 : parsebuf S2) cap2 mem2 p2 a2,
  pl_ok pl -> reads_as E pl o -> bo_native E pl = false -> p_cfg p1 = p_cfg p2 -> mo = NoExt \/ mo = Whole ->
  source PB1 mo fin cap1 mem1 p1 l a1 -> source PB2 mo fin cap2 mem2 p2 l a2 ->
  exists n r1 r2 p1' p2',
    gives_by E pl PB1 p1 r1 p1' /\ gives_by E pl PB2 p2 r2 p2' /\ same_result r1 r2 /\
    moved PB1 mo fin cap1 mem1 l a1 p1 n p1' /\ moved PB2 mo fin cap2 mem2 l a2 p2 n p2'.
Proof.
  intros E pl o l fin mo S1 PB1 cap1 mem1 p1 a1 S2 PB2 cap2 mem2 p2 a2 Hpl HE HN Hc Hm H1 H2.
  assert (Eo : order_of (host (other o) pl) (named o) = o) by now destruct o.
  assert (X : exists n r1 r2 p1' p2',
    gives (host (other o) pl) PB1 (recast (named o) p1) r1 p1' /\ gives (host (other o) pl) PB2 (recast (named o) p2) r2 p2' /\
    same_result r1 r2 /\
    moved PB1 mo fin cap1 mem1 l a1 (recast (named o) p1) n p1' /\ moved PB2 mo fin cap2 mem2 l a2 (recast (named o) p2) n p2').
  { destruct Hm as [-> | ->].
    - apply (C03_copied (host (other o) pl) (recfg (named o) (p_cfg p1))); try assumption; [reflexivity|]. cbn. now rewrite Hc.
    - apply (C03_same_bytes_partial (host (other o) pl) (recfg (named o) (p_cfg p1))); try assumption; try reflexivity;
        [cbn; now rewrite Hc| |];
        (split; [intros _; now left|]; right; left; cbn [recfg c_endian]; destruct o; discriminate). }
  destruct X as (n & r1 & r2 & p1' & p2' & G1 & G2 & Hs & M1 & M2).
  destruct (away E pl o S1 PB1 p1 _ _ HE HN G1) as (q1 & Gq1 & -> & Hq1).
  destruct (away E pl o S2 PB2 p2 _ _ HE HN G2) as (q2 & Gq2 & -> & Hq2).
  exists n, r1, r2, q1, q2. split; [exact Gq1|]. split; [exact Gq2|]. split; [exact Hs|].
  split; eapply moved_recast; eassumption.
Qed.

(** One call after the other. *)
Fixpoint run_gives_by (E : byteorder) (pl : platform) {S : Type} (PB : parsebuf S) (p : parser S) (rs : list result)
  (p' : parser S) : Prop :=
  match rs with
  | [] => p' = p
  | r :: t => exists p1, gives_by E pl PB p r p1 /\ run_gives_by E pl PB p1 t p'
  end.

(** A whole recording, damaged or not. *)
Theorem C86_recording_alike :
  forall E pl o fin mo k l S1 (PB1 : parsebuf S1) cap1 mem1 p1 a1 S2 (PB2 : parsebuf S2) cap2 mem2 p2 a2,
  pl_ok pl -> reads_as E pl o -> bo_native E pl = false -> p_cfg p1 = p_cfg p2 -> mo = NoExt \/ mo = Whole ->
  source PB1 mo fin cap1 mem1 p1 l a1 -> source PB2 mo fin cap2 mem2 p2 l a2 ->
  exists n rs1 rs2 p1' p2', length rs1 = k /\
    run_gives_by E pl PB1 p1 rs1 p1' /\ run_gives_by E pl PB2 p2 rs2 p2' /\ Forall2 same_result rs1 rs2 /\
    moved PB1 mo fin cap1 mem1 l a1 p1 n p1' /\ moved PB2 mo fin cap2 mem2 l a2 p2 n p2'.
Proof.
  intros E pl o fin mo k. induction k as [|k IH];
    intros l S1 PB1 cap1 mem1 p1 a1 S2 PB2 cap2 mem2 p2 a2 Hpl HE HN Hc Hm H1 H2.
  - exists 0, [], [], p1, p2. split; [reflexivity|]. split; [reflexivity|]. split; [reflexivity|].
    split; [constructor|]. unfold moved. rewrite drop_0, !N.add_0_r.
    split; (split; [lia|]; split; [assumption|]; split; reflexivity).
  - destruct (C86_anywhere_alike E pl o l fin mo S1 PB1 cap1 mem1 p1 a1 S2 PB2 cap2 mem2 p2 a2 Hpl HE HN Hc Hm H1 H2)
      as (n & r1 & r2 & q1 & q2 & G1 & G2 & Hr & (L1 & M1 & C1 & O1) & (L2 & M2 & C2 & O2)).
    destruct (IH (drop n l) S1 PB1 cap1 mem1 q1 (a1 + n) S2 PB2 cap2 mem2 q2 (a2 + n) Hpl HE HN ltac:(congruence) Hm M1 M2)
      as (n' & rs1 & rs2 & p1' & p2' & Hl & R1 & R2 & Hs & (L1' & M1' & C1' & O1') & (L2' & M2' & C2' & O2')).
    rewrite len_drop in L1', L2'. rewrite drop_drop in M1', M2'.
    exists (n + n'), (r1 :: rs1), (r2 :: rs2), p1', p2'. split; [cbn; congruence|].
    split; [exists q1; auto|]. split; [exists q2; auto|]. split; [now constructor|].
    split; (split; [lia|]; split; [rewrite N.add_assoc; assumption|]; split; [congruence|lia]).
Qed.

(** A type which says truly whether it is the order of the host: the recording is read as with the type of the crate,
    from any source whatever. *)
Theorem C86_recording : forall E pl S (PB : parsebuf S) rs p p' mo fin cap mem l a,
  pl_ok pl -> source PB mo fin cap mem p l a ->
  reads_as E pl (order_of pl (c_endian (p_cfg p))) ->
  (bo_native E pl = true <-> order_of pl (c_endian (p_cfg p)) = pl_host pl) ->
  (run_gives_by E pl PB p rs p' <-> run_gives pl PB p rs p').
Proof.
  intros E pl S PB rs. induction rs as [|r rs IH]; intros p p' mo fin cap mem l a Hpl Hs HE HN; [reflexivity|].
  cbn [run_gives_by run_gives].
  assert (K : forall q, gives_by E pl PB p r q <-> gives pl PB p r q).
  { intros q. split; intros G O V; [rewrite <- (C86_same E pl S PB O V p HE HN)|rewrite (C86_same E pl S PB O V p HE HN)]; apply G. }
  assert (N : forall q, gives pl PB p r q -> exists n, source PB mo fin cap mem q (drop n l) (a + n) /\ p_cfg q = p_cfg p).
  { intros q G. destruct (C04_record pl S PB mo fin cap mem _ record_visitor p l a Hpl Hs) as [_ (k & _ & Hs1 & Hc & _)].
    rewrite (G _ record_visitor) in Hs1, Hc. cbn [snd] in Hs1, Hc. exists k. now split. }
  split; intros (q & G & R); exists q.
  - pose proof (proj1 (K q) G) as G'. destruct (N q G') as (n & Hq & Ec). split; [exact G'|].
    apply (IH q p' mo fin cap mem (drop n l) (a + n) Hpl Hq); try (rewrite Ec; assumption). exact R.
  - destruct (N q G) as (n & Hq & Ec). split; [exact (proj2 (K q) G)|].
    apply (IH q p' mo fin cap mem (drop n l) (a + n) Hpl Hq); try (rewrite Ec; assumption). exact R.
Qed.

(** What the own type reads from a source which lends nothing, the type with the default reads as well. *)
Theorem C86_default_alike :
  forall E pl fin S1 (PB1 : parsebuf S1) cap1 mem1 S2 (PB2 : parsebuf S2) cap2 mem2 xs l p1 a1 p2 a2 p1',
  pl_ok pl -> reads_as E pl (order_of pl (c_endian (p_cfg p1))) -> bo_native E pl = false -> p_cfg p2 = p_cfg p1 ->
  source PB1 NoExt fin cap1 mem1 p1 l a1 -> source PB2 NoExt fin cap2 mem2 p2 l a2 ->
  gives_all pl PB1 p1 xs p1' ->
  exists n ys p2', run_gives_by E pl PB2 p2 (map inr ys) p2' /\ map seen ys = map seen xs /\
    moved PB1 NoExt fin cap1 mem1 l a1 p1 n p1' /\ moved PB2 NoExt fin cap2 mem2 l a2 p2 n p2'.
Proof.
  intros E pl fin S1 PB1 cap1 mem1 S2 PB2 cap2 mem2 xs.
  induction xs as [|[b md] xs IH]; intros l p1 a1 p2 a2 p1' Hpl HE HN Hc H1 H2 G; inversion G as [|? ? q1 ? ? Gx Gs]; subst.
  - exists 0, [], p2. split; [reflexivity|]. split; [reflexivity|]. unfold moved. rewrite drop_0, !N.add_0_r.
    split; (split; [lia|]; split; [assumption|]; split; reflexivity).
  - set (o := order_of pl (c_endian (p_cfg p1))) in *.
    destruct (C74_elsewhere_alike pl (host (other o) pl) fin l NoExt S1 PB1 cap1 mem1 p1 a1
                S2 PB2 cap2 mem2 (recast (named o) p2) a2 b md q1) as (n & b' & p2' & G2 & Hv & M1 & M2);
      try assumption.
    + apply N.le_refl.
    + cbn [recast p_cfg]. unfold same_data, recfg. cbn [c_flags c_regs_user c_regs_intr c_endian]. rewrite Hc.
      repeat split. fold o. now destruct o.
    + unfold at_home. cbn. fold o. destruct o; discriminate.
    + discriminate.
    + now left.
    + destruct (away E pl o S2 PB2 p2 _ _ HE HN G2) as (q2 & Gq & -> & Hq).
      apply (moved_recast _ _ _ _ _ _ _ _ (named o)) in M2; [|exact Hq].
      destruct M1 as (L1 & M1 & C1 & O1), M2 as (L2 & M2 & C2 & O2).
      destruct (IH (drop n l) q1 (a1 + n) q2 (a2 + n) p1' Hpl) as (n' & ys & p2' & R2 & Hs & (L1' & M1' & C1' & O1') & (L2' & M2' & C2' & O2'));
        try assumption; [now rewrite C1|congruence|].
      rewrite len_drop in L1', L2'. rewrite drop_drop in M1', M2'.
      exists (n + n'), ((b', md) :: ys), p2'. split; [exists q2; auto|].
      split; [cbn [map]; unfold seen at 1 3; cbn [fst snd]; congruence|].
      split; (split; [lia|]; split; [rewrite N.add_assoc; assumption|]; split; [congruence|lia]).
Qed.

(** A TEXT_POKE with no old bytes and a sample, read with the default of [is_native]: alike from two readers, and alike
    from memory at addresses of different alignment; the types of the crate give the same from a reader. *)
Definition chain_of_77 : sample cow :=
  mkSample None None None None None None None None None None (Some (Owned [77])) None None None None None None None None
    None None None None None None.

Local Ltac by_run :=
  intros O V; vm_compute; destruct V; repeat match goal with |- context [match ?x with Some _ => _ | None => _ end] =>
    is_var x; destruct x end; reflexivity.

Example C86_alike_example :
  let c := chain_cfg Little in
  let p k := reader_of [take k poke_then_chain; drop k poke_then_chain] c in
  let q a := on_slice a poke_then_chain c in
  reads_as (plain LE) pl64 LE /\ bo_native (plain LE) pl64 = false /\
  (forall k, 0 < k -> k < 30 -> source bufreader_buf NoExt eof_error 16384 (fun _ => 0) (p k) poke_then_chain 0) /\
  (forall a, a < 10000 -> source slice_buf Whole eof_error 65536 (memory_of a poke_then_chain) (q a) poke_then_chain a) /\
  (exists t s p1' p2' p3' md md',
    run_gives_by (plain LE) pl64 bufreader_buf (p 3) [inr (BTextPoke t, md); inr (BSample s, md')] p1' /\
    run_gives_by (plain LE) pl64 bufreader_buf (p 29) [inr (BTextPoke t, md); inr (BSample s, md')] p2' /\
    gives_all pl64 bufreader_buf (p 29) [(BTextPoke t, md); (BSample s, md')] p3' /\
    cow_list (tp_old t) = [1; 2; 3; 4] /\ s_callchain s = Some (Owned [77])) /\
  (exists t t' s p1' p2' md md',
    run_gives_by (plain LE) pl64 slice_buf (q 8) [inr (BTextPoke t, md); inr (BSample s, md')] p1' /\
    run_gives_by (plain LE) pl64 slice_buf (q 4101) [inr (BTextPoke t', md); inr (BSample s, md')] p2' /\
    cow_list (tp_new t) = [1; 2; 3; 4] /\ cow_list (tp_new t') = [1; 2; 3; 4] /\ s_callchain s = Some (Owned [77])).
Proof.
  cbv zeta. split; [intros l; repeat split|]. split; [reflexivity|]. split; [|split; [|split]].
  - intros k H1 H2.
    pose proof (reader_source [] [take k poke_then_chain; drop k poke_then_chain] None (chain_cfg Little) 16384 (fun _ => 0)) as H.
    replace ([] ++ concat [take k poke_then_chain; drop k poke_then_chain]) with poke_then_chain in H
      by (cbn [concat app]; now rewrite app_nil_r, take_drop).
    apply H; [apply N.le_refl|vm_compute; repeat constructor|reflexivity|].
    repeat constructor; intros E; apply (f_equal len) in E; rewrite ?len_take, ?len_drop in E;
      change (len poke_then_chain) with 48 in E; cbn [len] in E; rewrite len_nil in E; lia.
  - intros a Ha. apply slice_source; [| | |apply memory_of_at]; try (vm_compute; congruence). vm_compute; repeat constructor.
  - exists (mkTextPoke 0xABC (Owned [1; 2; 3; 4]) (Borrowed 0 [])), chain_of_77. do 3 eexists.
    exists (mkMeta 20 0 sample_id_default), (mkMeta 9 0 sample_id_default).
    split; [eexists; split; [by_run|]; eexists; split; [by_run|reflexivity]|].
    split; [eexists; split; [by_run|]; eexists; split; [by_run|reflexivity]|].
    split; [eapply gives_more; [apply collect_gives; vm_compute; reflexivity|];
      eapply gives_more; [apply collect_gives; vm_compute; reflexivity|constructor]|].
    split; reflexivity.
  - exists (mkTextPoke 0xABC (Borrowed 28 []) (Borrowed 28 [1; 2; 3; 4])),
      (mkTextPoke 0xABC (Borrowed 4121 []) (Borrowed 4121 [1; 2; 3; 4])), chain_of_77. do 2 eexists.
    exists (mkMeta 20 0 sample_id_default), (mkMeta 9 0 sample_id_default).
    split; [eexists; split; [by_run|]; eexists; split; [by_run|reflexivity]|].
    split; [eexists; split; [by_run|]; eexists; split; [by_run|reflexivity]|].
    split; [|split]; reflexivity.
Qed.

Print Assumptions C86_anywhere_alike.
Print Assumptions C86_recording_alike.
Print Assumptions C86_recording.
Print Assumptions C86_default_alike.
