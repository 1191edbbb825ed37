(** Theorems: byte orders implemented by users of the crate (C86). *)
From Coq Require Import NArith List Bool Lia.
From Verif Require Import Base BaseFacts Types Platform Config Buf Parser Contract Flat Refine.
From Verif Require Import Instances Prims Slices Records Sample Record Attr Views RefRecords.
From Verif Require Import RefFrame RefTop Wire Codec Spec SameFacts ExData.
From Verif Require Import PropsFrame PropsSafe PropsSame PropsHost.
From Verif Require Import Endian EndianFacts EndianSafe.
Import ListNotations.
Open Scope N_scope.

(** [E] converts from the byte order [o], on the host [pl]. *)
Definition reads_as (E : byteorder) (pl : platform) (o : order) : Prop :=
  forall l, (len l = 2 -> bo_16 E pl l = from_order o l) /\ (len l = 4 -> bo_32 E pl l = from_order o l) /\
            (len l = 8 -> bo_64 E pl l = from_order o l).

(** What a whole record comes to, whatever the visitor. *)
Definition gives_by (E : byteorder) (pl : platform) {S : Type} (PB : parsebuf S) (p : parser S) (r : result)
  (p' : parser S) : Prop :=
  forall O (V : visitor O), parse_record_by E pl PB V p =
    (match r with inl e => Err e | inr (b, md) => answer V b md end, p').

(** The crate's own name for an order. *)
Definition named (o : order) : endian := match o with LE => Little | BE => Big end.
Definition other (o : order) : order := match o with LE => BE | BE => LE end.

Lemma recast_same : forall S (p : parser S) e, c_endian (p_cfg p) = e -> recast e p = p.
Proof. intros S [[f u i x] b o l] e H. cbn in H. subst. reflexivity. Qed.

Lemma host_same : forall pl, host (pl_host pl) pl = pl.
Proof. intros []. reflexivity. Qed.

Lemma convert_from : forall pl e l, convert pl e l = from_order (order_of pl e) l.
Proof. exact convert_order. Qed.

Lemma native_order : forall pl e, is_native pl e = order_eqb (order_of pl e) (pl_host pl).
Proof. intros [[] ? ?] []; reflexivity. Qed.

(** What a relation says of a run with the right order set. *)
Lemma rel_here : forall e S A (m m' : M S A) p, Rel e m m' -> c_endian (p_cfg p) = e -> m' p = m p.
Proof.
  intros e S A m m' p H E. destruct (H p) as [H1 H2]. rewrite (recast_same _ _ _ E) in H1.
  rewrite (recast_same _ _ _ (eq_trans (f_equal c_endian H2) E)) in H1. rewrite H1. now destruct (m' p).
Qed.

Lemma converts_here : forall E pl e, reads_as E pl (order_of pl e) -> converts e E pl (pl_host pl).
Proof.
  intros E pl e H l. rewrite host_same, convert_from. apply H.
Qed.

Lemma converts_away : forall E pl o, reads_as E pl o -> converts (named o) E pl (other o).
Proof. intros E pl [] H l; apply H. Qed.

(** ** C86, a type which says of itself what is so is as good as the crate's own. *)
Theorem C86_same : forall E pl S (PB : parsebuf S) O (V : visitor O) p,
  let o := order_of pl (c_endian (p_cfg p)) in
  reads_as E pl o -> (bo_native E pl = true <-> o = pl_host pl) ->
  parse_record_by E pl PB V p = parse_record pl PB V p.
Proof.
  intros E pl S PB O V p o H HN. set (e := c_endian (p_cfg p)) in *.
  assert (HR : reports e E pl (pl_host pl)).
  { split; [|reflexivity]. rewrite host_same, native_order. fold o. destruct (bo_native E pl) eqn:Eb.
    - rewrite (proj1 HN eq_refl). now destruct (pl_host pl).
    - destruct o, (pl_host pl); try reflexivity; discriminate (proj2 HN eq_refl). }
  pose proof (rel_record e _ pl E (converts_here E pl e H) HR PB O V) as R.
  rewrite host_same in R. exact (rel_here e _ _ _ _ p R eq_refl).
Qed.

(** In particular the types of the crate, taken as implementations like any other, are those of the model. *)
Theorem C86_builtin : forall pl S (PB : parsebuf S) O (V : visitor O) p,
  parse_record_by (builtin (c_endian (p_cfg p))) pl PB V p = parse_record pl PB V p.
Proof.
  intros pl S PB O V p. apply C86_same.
  - intros l. now repeat split; intros _; apply convert_from.
  - cbn [builtin bo_native]. rewrite native_order.
    destruct (order_of pl (c_endian (p_cfg p))), (pl_host pl); now split.
Qed.

(** ** C86, metadata and attributes hold no arrays: there it does not matter what it says. *)
Theorem C86_attr : forall E pl S (PB : parsebuf S) p,
  reads_as E pl (order_of pl (c_endian (p_cfg p))) -> parse_attr_by E pl PB p = parse_attr pl PB p.
Proof.
  intros E pl S PB p H. pose proof (rel_attr _ _ pl E (converts_here E pl _ H) S PB) as R.
  rewrite host_same in R. exact (rel_here _ _ _ _ _ p R eq_refl).
Qed.

(** Parsers which are the same but for the name of the byte order. *)
Definition same_parser {S : Type} (p q : parser S) : Prop :=
  p_buf p = p_buf q /\ p_off p = p_off q /\ p_log p = p_log q /\ c_flags (p_cfg p) = c_flags (p_cfg q) /\
  c_regs_user (p_cfg p) = c_regs_user (p_cfg q) /\ c_regs_intr (p_cfg p) = c_regs_intr (p_cfg q).

Theorem C86_metadata : forall E pl S (PB : parsebuf S) p,
  reads_as E pl (order_of pl (c_endian (p_cfg p))) ->
  snd (parse_metadata_by E pl PB p) = snd (parse_metadata pl PB p) /\
  match fst (parse_metadata_by E pl PB p), fst (parse_metadata pl PB p) with
  | Ok (q, md), Ok (q', md') => md = md' /\ same_parser q q'
  | Err e, Err e' => e = e'
  | Panic, Panic | Fuel, Fuel => True
  | _, _ => False
  end.
Proof.
  intros E pl S PB p H.
  destruct (relv_metadata _ _ _ _ (converts_here E pl _ H) PB p) as [H1 H2].
  rewrite host_same, (recast_same _ p _ eq_refl) in H1. rewrite H1. clear H1.
  destruct (parse_metadata_by E pl PB p) as [r q]. cbn [fst snd] in *.
  split; [now rewrite (recast_same _ q _ (f_equal c_endian H2))|].
  destruct r as [[x md]|x| |]; cbn; auto. now repeat split.
Qed.

(** ** C86, a type which leaves the default of [is_native] reads the host's own order too. *)
Lemma away : forall E pl o S (PB : parsebuf S) p r p', reads_as E pl o -> bo_native E pl = false ->
  gives (host (other o) pl) PB (recast (named o) p) r p' ->
  exists q, gives_by E pl PB p r q /\ p' = recast (named o) q /\ p_cfg q = p_cfg p.
Proof.
  intros E pl o S PB p r p' H HN G.
  assert (HR : reports (named o) E pl (other o)) by (split; [rewrite HN; now destruct o|congruence]).
  pose proof (fun O V => rel_record _ _ pl E (converts_away E pl o H) HR PB O V p) as R.
  set (q := snd (parse_record_by E pl PB record_visitor p)). exists q.
  assert (Hq : p' = recast (named o) q).
  { destruct (R _ record_visitor) as [R1 _]. rewrite (G _ record_visitor) in R1. fold q in R1. congruence. }
  split; [|split; [exact Hq|apply R]].
  intros O V. destruct (R O V) as [R1 R2]. rewrite (G O V) in R1. injection R1 as R1 R3.
  destruct (parse_record_by E pl PB V p) as [r' q'] eqn:Er. cbn [fst snd] in *. subst r'. f_equal.
  destruct (R _ record_visitor) as [_ R4]. fold q in R4.
  rewrite Hq in R3. destruct q as [[] ? ? ?], q' as [[] ? ? ?]. unfold recast, recfg in R3. cbn in *. congruence.
Qed.

Lemma moved_recast : forall S (PB : parsebuf S) mo fin cap mem l a e p n q, p_cfg q = p_cfg p ->
  moved PB mo fin cap mem l a (recast e p) n (recast e q) -> moved PB mo fin cap mem l a p n q.
Proof. intros S PB mo fin cap mem l a e p n q Hc (H1 & H2 & _ & H4). split; [exact H1|]. split; [exact H2|]. now split. Qed.

Theorem C86_default_partial :
  forall E pl fin l S1 (PB1 : parsebuf S1) mo1 cap1 mem1 p1 a1 S2 (PB2 : parsebuf S2) mo2 cap2 mem2 p2 a2 b md p1',
  let o := order_of pl (c_endian (p_cfg p1)) in
  pl_ok pl -> reads_as E pl o -> bo_native E pl = false -> p_cfg p2 = p_cfg p1 ->
  source PB1 mo1 fin cap1 mem1 p1 l a1 -> source PB2 mo2 fin cap2 mem2 p2 l a2 ->
  tame pl (p_cfg p1) mo1 a1 l -> (from_order o (take 4 l) = 20 -> mo2 = Whole \/ two_parts o l) ->
  gives pl PB1 p1 (inr (b, md)) p1' ->
  exists n b' p2', gives_by E pl PB2 p2 (inr (b', md)) p2' /\ view_body b' = view_body b /\
    moved PB1 mo1 fin cap1 mem1 l a1 p1 n p1' /\ moved PB2 mo2 fin cap2 mem2 l a2 p2 n p2'.
Proof.
  intros E pl fin l S1 PB1 mo1 cap1 mem1 p1 a1 S2 PB2 mo2 cap2 mem2 p2 a2 b md p1' o Hpl HE HN Hc H1 H2 T1 T2 G.
  destruct (C74_elsewhere_partial pl (host (other o) pl) fin l S1 PB1 mo1 cap1 mem1 p1 a1
              S2 PB2 mo2 cap2 mem2 (recast (named o) p2) a2 b md p1') as (n & b' & p2' & G2 & Hv & M1 & M2);
    try assumption.
  - apply N.le_refl.
  - cbn [recast p_cfg]. unfold same_data, recfg. cbn [c_flags c_regs_user c_regs_intr c_endian]. rewrite Hc.
    repeat split. fold o. now destruct o.
  - unfold at_home. cbn. fold o. destruct o; discriminate.
  - split; cbn [recast p_cfg recfg c_endian].
    + replace (order_of (host (other o) pl) (named o)) with o by now destruct o. exact T2.
    + right. left. destruct o; discriminate.
  - destruct (away E pl o S2 PB2 p2 _ _ HE HN G2) as (q & Gq & -> & Hq).
    exists n, b', q. split; [exact Gq|]. split; [exact Hv|]. split; [exact M1|]. now apply (moved_recast _ _ _ _ _ _ _ _ (named o)).
Qed.

(** ** C86, and reads it alike wherever the bytes are. *)
Theorem C86_anywhere :
  forall E pl o l fin S1 (PB1 : parsebuf S1) mo1 cap1 mem1 p1 a1 S2 (PB2 : parsebuf S2) mo2 cap2 mem2 p2 a2,
  pl_ok pl -> reads_as E pl o -> bo_native E pl = false -> p_cfg p1 = p_cfg p2 ->
  from_order o (take 4 l) <> 20 \/ two_parts o l ->
  source PB1 mo1 fin cap1 mem1 p1 l a1 -> source PB2 mo2 fin cap2 mem2 p2 l a2 ->
  exists n r1 r2 p1' p2',
    gives_by E pl PB1 p1 r1 p1' /\ gives_by E pl PB2 p2 r2 p2' /\ same_result r1 r2 /\
    moved PB1 mo1 fin cap1 mem1 l a1 p1 n p1' /\ moved PB2 mo2 fin cap2 mem2 l a2 p2 n p2'.
Proof.
  intros E pl o l fin S1 PB1 mo1 cap1 mem1 p1 a1 S2 PB2 mo2 cap2 mem2 p2 a2 Hpl HE HN Hc Ht H1 H2.
  assert (Eo : order_of (host (other o) pl) (named o) = o) by now destruct o.
  destruct (C03_foreign_order (host (other o) pl) (recfg (named o) (p_cfg p1)) l fin S1 PB1 mo1 cap1 mem1 (recast (named o) p1) a1
              S2 PB2 mo2 cap2 mem2 (recast (named o) p2) a2) as (n & r1 & r2 & p1' & p2' & G1 & G2 & Hs & M1 & M2);
    cbn [recfg c_endian]; rewrite ?Eo; try assumption.
  - reflexivity.
  - cbn. now rewrite Hc.
  - destruct o; discriminate.
  - destruct (away E pl o S1 PB1 p1 _ _ HE HN G1) as (q1 & Gq1 & -> & Hq1).
    destruct (away E pl o S2 PB2 p2 _ _ HE HN G2) as (q2 & Gq2 & -> & Hq2).
    exists n, r1, r2, q1, q2. split; [exact Gq1|]. split; [exact Gq2|]. split; [exact Hs|].
    split; eapply moved_recast; eassumption.
Qed.

(** ** C86, whatever the methods return, parsing ends in an error or with the visitor and reserves little. *)
Theorem C86_safe : forall E pl S (PB : parsebuf S) mo fin cap mem O (V : visitor O) p l a,
  pl_ok pl -> typed E pl -> source PB mo fin cap mem p l a ->
  ((exists e, fst (parse_record_by E pl PB V p) = Err e) \/
   (exists b md, fst (parse_record_by E pl PB V p) = answer V b md)) /\
  (exists k, moved PB mo fin cap mem l a p k (snd (parse_record_by E pl PB V p))) /\
  exists new, p_log (snd (parse_record_by E pl PB V p)) = new ++ p_log p /\ Forall (fun n => n <= 65527) new.
Proof.
  intros E pl S PB mo fin cap mem O V p l a Hpl HE (rep & HC & Hr & Hw).
  rewrite <- (N.add_0_r a) in Hr.
  destruct (record_safe_by E pl HE PB mo fin cap mem rep a HC Hpl O V p l 0 Hr Hw)
    as (r & p' & l' & k & Er & Hs & H).
  rewrite Er. cbn [fst snd]. split; [|split].
  - destruct H as [(b & md & -> & _)|(e & -> & _)]; [right|left; eauto].
    exists b, md. apply deliver_answer.
  - exists k. eapply step_moved; eassumption.
  - exact (st_log _ _ _ _ _ _ _ _ _ Hs).
Qed.

Theorem C86_attr_safe : forall E pl S (PB : parsebuf S) mo fin cap mem p l a,
  pl_ok pl -> typed E pl -> source PB mo fin cap mem p l a ->
  ends (fst (parse_attr_by E pl PB p)) /\
  exists k, moved PB mo fin cap mem l a p k (snd (parse_attr_by E pl PB p)).
Proof.
  intros E pl S PB mo fin cap mem p l a Hpl HE (rep & HC & Hr & Hw).
  rewrite <- (N.add_0_r a) in Hr.
  destruct (attr_safe_by E pl HE PB mo fin cap mem rep a HC Hpl p l 0 Hr Hw)
    as (r & p' & l' & k & Er & Hg & Hs).
  rewrite Er. cbn [fst snd]. split; [eapply good_ends; exact Hg|].
  exists k. eapply step_moved; eassumption.
Qed.

(** ** C86, a type which wrongly claims the host's order gets arrays, and they alone, the wrong way round. *)
Definition liar : byteorder :=
  mkOrder (fun _ => from_be) (fun _ => from_be) (fun _ => from_be) (fun _ => true).
Definition chain_be (l : list N) : list N := w_header BE 9 0 (16 + 8 * len l) ++ w64 BE (len l) ++ flat_map (w64 BE) l.

Theorem C86_claim_refuted : exists E pl p s s',
  reads_as E pl (order_of pl (c_endian (p_cfg p))) /\ typed E pl /\
  fst (parse_record_enum pl slice_buf p) = Ok (RBody (BSample s)) /\
  fst (parse_record_enum_by E pl slice_buf p) = Ok (RBody (BSample s')) /\
  option_map cow_list (s_callchain s) = Some [1; 2] /\
  option_map cow_list (s_callchain s') = Some [2 ^ 56; 2 ^ 57].
Proof.
  exists liar, pl64, (on_slice 8 (chain_be [1; 2]) (chain_cfg Big)). do 2 eexists.
  split; [intros l; repeat split|]. split.
  { intros l Hb. repeat split; intros Hl; cbn [liar bo_16 bo_32 bo_64]; change from_be with (from_order BE).
    - change (2 ^ 16) with (256 ^ 2). rewrite <- Hl. now apply from_order_bound.
    - change (2 ^ 32) with (256 ^ 4). rewrite <- Hl. now apply from_order_bound.
    - change (2 ^ 64) with (256 ^ 8). rewrite <- Hl. now apply from_order_bound. }
  split; [vm_compute; reflexivity|]. split; [vm_compute; reflexivity|]. split; vm_compute; reflexivity.
Qed.

(** ** C86, with the default an empty array at the end is read, which the crate's types do not allow. *)
Theorem C86_empty_refuted : exists E pl p s,
  reads_as E pl (order_of pl (c_endian (p_cfg p))) /\ bo_native E pl = false /\
  fst (parse_record_enum pl slice_buf p) = Err eof_error /\
  fst (parse_record_enum_by E pl slice_buf p) = Ok (RBody (BSample s)) /\
  option_map cow_list (s_callchain s) = Some [].
Proof.
  exists (plain LE), pl64, (on_slice 8 (chain_record 0 []) (chain_cfg Little)). eexists.
  split; [intros l; repeat split|]. split; [reflexivity|]. split; [vm_compute; reflexivity|].
  split; vm_compute; reflexivity.
Qed.

(** The same sample, the crate's way and with the default: lent and copied. *)
Example C86_example :
  let l := chain_record 2 (w64 LE 77 ++ w64 LE 78) in
  let p := on_slice 8 l (chain_cfg Little) in
  reads_as (plain LE) pl64 (order_of pl64 (c_endian (p_cfg p))) /\ bo_native (plain LE) pl64 = false /\
  tame pl64 (p_cfg p) Whole 8 l /\ typed (plain LE) pl64 /\
  (exists s, fst (parse_record_enum pl64 slice_buf p) = Ok (RBody (BSample s)) /\
     s_callchain s = Some (Borrowed 24 [77; 78])) /\
  (exists s, fst (parse_record_enum_by (plain LE) pl64 slice_buf p) = Ok (RBody (BSample s)) /\
     s_callchain s = Some (Owned [77; 78])) /\
  (exists s, fst (parse_record_enum_by (plain LE) pl64 slice_buf (on_slice 9 l (chain_cfg Little))) = Ok (RBody (BSample s)) /\
     s_callchain s = Some (Owned [77; 78])).
Proof.
  cbv zeta. split; [intros l; repeat split|]. split; [reflexivity|]. split.
  { split; [discriminate|]. right. right. right. split; [now left|]. split; [reflexivity|]. reflexivity. }
  split.
  { intros l Hb. repeat split; intros Hl; cbn [plain bo_16 bo_32 bo_64].
    - change (2 ^ 16) with (256 ^ 2). rewrite <- Hl. now apply from_order_bound.
    - change (2 ^ 32) with (256 ^ 4). rewrite <- Hl. now apply from_order_bound.
    - change (2 ^ 64) with (256 ^ 8). rewrite <- Hl. now apply from_order_bound. }
  split; [|split]; eexists; split; vm_compute; reflexivity.
Qed.

(** A type of the user in all but name the crate's [Big], which meets the conditions of [C86_same]. *)
Example C86_same_example :
  let E := mkOrder (fun _ l => match l with [a; b] => a * 256 + b | _ => 0 end) (fun _ => from_be) (fun _ => from_be)
             (fun pl => match pl_host pl with BE => true | LE => false end) in
  forall pl, reads_as E pl (order_of pl Big) /\ (bo_native E pl = true <-> order_of pl Big = pl_host pl).
Proof.
  cbv zeta. intros pl. split.
  - intros l. split; [|repeat split]. intros H. destruct l as [|a [|b [|c t]]]; rewrite ?len_cons, ?len_nil in H; try lia.
    cbn [bo_16 order_of]. unfold from_order, from_be. cbn [rev app from_le]. lia.
  - cbn. destruct (pl_host pl); split; congruence.
Qed.

(** Whatever numbers a type makes up, here zero for all: the record is taken to be too small. *)
Example C86_safe_example :
  let E := mkOrder (fun _ _ => 0) (fun _ _ => 0) (fun _ _ => 0) (fun _ => true) in
  typed E pl64 /\ fst (parse_record_enum_by E pl64 slice_buf (on_slice 8 (chain_record 0 []) (chain_cfg Little)))
    = Err (custom_error KInvalidRecord MsgHeaderTooSmall).
Proof.
  cbv zeta. split; [|vm_compute; reflexivity]. intros l _. cbn [bo_16 bo_32 bo_64]. repeat split; intros _; reflexivity.
Qed.

Print Assumptions C86_same.
Print Assumptions C86_builtin.
Print Assumptions C86_attr.
Print Assumptions C86_metadata.
Print Assumptions C86_default_partial.
Print Assumptions C86_anywhere.
Print Assumptions C86_safe.
Print Assumptions C86_attr_safe.
Print Assumptions C86_claim_refuted.
Print Assumptions C86_empty_refuted.
