(** Theorems: exactly which samples, records and streams are read back as they were
    written (C63), what becomes of TEXT_POKE records (C35), and that reading leaves the
    configuration alone (C62). *)
From Coq Require Import NArith List Bool Lia.
From Verif Require Import Base BaseFacts Types Platform Config Buf Parser Contract Flat Refine.
From Verif Require Import Instances Prims Slices Records Sample Record Attr Views RefRecords.
From Verif Require Import RefFrame RefTop Safe Wire Codec Bits ConfFacts Roundtrip RtSample RtRecord RtFail.
From Verif Require Import Spec NoHint FrameFacts RoundFacts Read Keep PokeFacts ExactFacts ExData.
From Verif Require ReadFacts PropsParts PropsPrim PropsRead.
From Verif Require Import PropsFrame PropsSafe PropsRound PropsSession.
Import ListNotations.
Open Scope N_scope.

(** ** C63: a sample is read back exactly when these four hold of it: the read_format
    has no flag the crate does not know, WEIGHT_STRUCT is not asked for without WEIGHT,
    no empty variable-length part comes last, and every register set asked for was
    dumped. *)
Definition sample_readable (host o : order) (w : settings) (x : sample_wire) (rest : list N) : Prop :=
  (sbit w 4 = true -> known_format w) /\ (sbit w 24 = true -> sbit w 14 = true) /\
  followed (w_fields o w host x) rest /\
  regs_dumped (s_regs_user (sw_sample x)) /\ regs_dumped (s_regs_intr (sw_sample x)).

Lemma regs_from_wf : forall mask y r, opt_all (regs_ok mask) r -> 
  opt_ok (fun r => regs_wf (rg_mask r) r) y -> option_map view_registers y = r -> regs_dumped r.
Proof.
  intros mask y r Hok Hwf <-. destruct y as [v|]; [|exact I]. cbn [option_map opt_all opt_ok regs_dumped] in *.
  destruct Hwf as [_ H]. destruct Hok as (_ & Hm & Hlt & _). unfold regs_dumped. cbn [opt_all].
  cbn [view_registers rg_regs rg_mask] in *. rewrite H. apply popcount_bits_set. now rewrite Hm.
Qed.

Lemma sample_needs : forall c w s x, configured c w -> sample_ok w x ->
  sample_cond c s -> sample_wf s -> view_sample s = sw_sample x ->
  (sbit w 4 = true -> known_format w) /\ (sbit w 24 = true -> sbit w 14 = true) /\
  regs_dumped (s_regs_user (sw_sample x)) /\ regs_dumped (s_regs_intr (sw_sample x)).
Proof.
  intros c w s x Hcf Hok [Hv Hw] (_ & Hu & Hi) E.
  unfold sample_ok in Hok. cbv zeta in Hok. rewrite <- E in *.
  destruct Hok as (_ & _ & _ & _ & _ & _ & _ & _ & _ & (Hv1 & _ & Hv3) & _ & _ & _ & (_ & Hu2) & _ & Hwt & _ &
    _ & (_ & Hi2) & _).
  split; [|split; [|split]].
  - intros H4. apply (known_small c w Hcf), Hv. intros En. unfold has in Hv1. rewrite H4 in Hv1.
    cbn [view_sample s_values] in Hv3. rewrite En in Hv3. destruct (sw_values x); [discriminate|]. now apply Hv1.
  - intros H24. rewrite H24, orb_true_r in Hwt. unfold field in Hwt. cbn [view_sample s_weight] in Hwt.
    destruct Hcf as (Es & _). rewrite Es in Hw.
    assert (Hn : s_weight s <> None) by (destruct (s_weight s); [discriminate|discriminate Hwt]).
    specialize (Hw Hn). change SF_WEIGHT with (2 ^ 14) in Hw. now rewrite contains_pow2 in Hw.
  - eapply regs_from_wf; [exact Hu2|exact Hu|reflexivity].
  - eapply regs_from_wf; [exact Hi2|exact Hi|reflexivity].
Qed.

(** Full statement: without [lends_aligned]. *)
Theorem C63_sample_partial : forall pl S (PB : parsebuf S) mo fin cap mem w p x rest a,
  let o := order_of pl (c_endian (p_cfg p)) in
  pl_ok pl -> configured (p_cfg p) w -> sample_ok w x ->
  len (w_sample o w x) <= usize_max pl -> cap <= isize_max pl ->
  lends_aligned pl mo a \/ o <> pl_host pl ->
  source PB mo fin cap mem p (w_sample o w x ++ rest) a ->
  (exists s p', parse_sample pl PB p = (Ok s, p') /\ view_sample s = sw_sample x) <->
  sample_readable (pl_host pl) o w x rest.
Proof.
  intros pl S PB mo fin cap mem w p x rest a o Hpl Hcf Hok Hlen Hcap Hl Hs. split.
  - intros (s & p' & E & Hv).
    assert (Hc : sample_cond (p_cfg p) s) by (eapply under_sample; [reflexivity|exact E]).
    assert (Hwf : sample_wf s).
    { destruct Hs as (rep & HC & Hr & Hw).
      destruct (s_sample pl PB mo fin cap mem rep a HC Hcap p _ 0 ltac:(rewrite N.add_0_r; exact Hr) Hw)
        as (r & p1 & l1 & n1 & E1 & Hg & _).
      rewrite E in E1. injection E1 as <- _. exact Hg. }
    destruct (sample_needs _ _ _ _ Hcf Hok Hc Hwf Hv) as (H1 & H2 & H3 & H4).
    split; [exact H1|]. split; [exact H2|]. split; [|now split].
    destruct (followed_dec (w_fields o w (pl_host pl) x) rest) as [F|F]; [exact F|exfalso].
    destruct rest as [|y t]; [|apply F, followed_rest; discriminate]. rewrite app_nil_r in Hs.
    assert (HR : forall rep, contract PB mo fin cap mem rep ->
      Ref mo fin cap rep a (vrel view_sample (ok_sample mo mem pl)) (parse_sample pl PB) (f_sample pl))
      by (intros rep HC; eapply Ref_sample; eassumption).
    assert (Hrf : forall a0, a0 mod 8 = 0 -> 
      Rf a0 (poke_of mo) (mkEnv (p_cfg p) fin) (f_sample pl) (w_sample o w x) 0).
    { intros a0 Ha0. apply (Rf_sample pl Hpl a0 (poke_of mo) (mkEnv (p_cfg p) fin) w Hcf); try assumption.
      now rewrite N.add_0_r. }
    assert (Hf : exists p', parse_sample pl PB p = (Err fin, p')).
    { destruct Hl as [Hl|Hl].
      - exact (fails_aligned pl PB mo fin cap mem _ _ _ _ _ p _ a HR (Hrf 0 eq_refl)
      (evs_sample _ _ _ (fun B FE n => evs_array_own pl _ B FE n)) Hl Hs).
      - eapply (fails_evs PB mo fin cap mem); [exact HR| |exact (Hrf 0 eq_refl)|exact Hs].
        apply evs_sample. intros B E' n. apply evs_array_foreign. intros c ->. exact Hl. }
    destruct Hf as (p2 & Hf). congruence.
  - intros (H1 & H2 & H3 & H4 & H5).
    destruct (PropsParts.C20_sample_partial pl S PB mo fin cap mem w p x rest a) as (s & p' & E & Hv & _);
      try assumption. eauto.
Qed.

(** Counter values in a group, read as a part of their own: they are read back exactly
    when no flag is unknown and an empty group in the host's order does not come last. *)
(** Full statement: without [lends_aligned]. *)
Theorem C63_group_partial : forall pl S (PB : parsebuf S) mo fin cap mem w p te tr ks rest a,
  let o := order_of pl (c_endian (p_cfg p)) in
  pl_ok pl -> cap <= isize_max pl -> configured (p_cfg p) w -> rbit w 3 = true ->
  te < 2 ^ 64 -> tr < 2 ^ 64 ->
  Forall (fun k => ct_value k < 2 ^ 64 /\ ct_id k < 2 ^ 64 /\ ct_lost k < 2 ^ 64) ks ->
  len (w_group o w te tr ks) <= usize_max pl ->
  lends_aligned pl mo a \/ o <> pl_host pl ->
  source PB mo fin cap mem p (w_group o w te tr ks ++ rest) a ->
  (exists g p', parse_read_group pl PB p = (Ok g, p') /\
     rg_format g = ws_read_format w /\ ReadFacts.counters g ks /\
     rg_get_enabled g = PropsRead.wanted (rbit w 0) te /\ rg_get_running g = PropsRead.wanted (rbit w 1) tr) <->
  known_format w /\ (ks <> [] \/ rest <> [] \/ o <> pl_host pl).
Proof.
  intros pl S PB mo fin cap mem w p te tr ks rest a o Hpl Hcap Hcf Hg Hte Htr Hks Hlen Hl Hs. split.
  - intros (g & p' & E & _).
    assert (Hk : known_format w).
    { apply (known_small (p_cfg p) w Hcf). eapply under_read_group; [reflexivity|exact E]. }
    split; [exact Hk|].
    destruct ks as [|k ks]; [|left; discriminate].
    destruct rest as [|y t]; [|right; left; discriminate].
    right; right. intros Ho. rewrite app_nil_r in Hs.
    destruct Hl as [Hl|Hl]; [|contradiction].
    set (te' := if rbit w 0 then te else 0). set (tr' := if rbit w 1 then tr else 0).
    assert (Eb : w_group o w te tr [] = w_group o w te' tr' []).
    { unfold w_group, te', tr'. now destruct (rbit w 0), (rbit w 1). }
    rewrite Eb in Hs.
    assert (HR : forall rep, contract PB mo fin cap mem rep ->
      Ref mo fin cap rep a (vrel view_read_group (ok_read_group mem pl)) (parse_read_group pl PB) (f_read_group pl))
      by (intros rep HC; eapply Ref_read_group; eassumption).
    destruct (fails_aligned pl PB mo fin cap mem _ _ _ _ _ p _ a HR
      (Rf_read_group pl 0 (poke_of mo) (mkEnv (p_cfg p) fin) w Hcf te' tr' 0 Hk Hg
        ltac:(unfold num, te'; destruct (rbit w 0); [exact Hte|reflexivity])
        ltac:(unfold num, tr'; destruct (rbit w 1); [exact Htr|reflexivity]) Ho)
      (evs_read_group _ _ _ (fun B FE n => evs_array_own pl _ B FE n)) Hl Hs) as (p2 & E2).
    congruence.
  - intros [Hk Hne].
    destruct (PropsRead.C16_group_partial pl S PB mo fin cap mem w p te tr ks rest a)
      as (g & p' & E & H1 & H2 & H3 & H4 & _); try assumption. exists g, p'. auto.
Qed.

(** A group of no counters at the very end: not read in the order of the host, read in
    the other one. *)
Example C63_example_group :
  let w := mkSettings 0 8 false false 0 0 in
  let c e := mkConfig (cf_new 8 0 false false 0) 0 0 e in
  let p e := on_slice 4096 (w_group (order_of pl64 e) w 0 0 []) (c e) in
  (forall e, configured (p_cfg (p e)) w /\
     source slice_buf Whole eof_error (isize_max pl64) (memory_of 4096 (w_group (order_of pl64 e) w 0 0 []))
       (p e) (w_group (order_of pl64 e) w 0 0 [] ++ []) 4096) /\
  known_format w /\
  fst (parse_read_group pl64 slice_buf (p Little)) = Err eof_error /\
  (exists g, fst (parse_read_group pl64 slice_buf (p Big)) = Ok g /\ ReadFacts.counters g []).
Proof.
  cbv zeta. split.
  - intros e. split; [destruct e; vm_compute; repeat split; reflexivity|].
    destruct e; (apply slice_source; [| | |apply memory_of_at]; try (vm_compute; congruence); repeat constructor).
  - split; [reflexivity|]. split; [vm_compute; reflexivity|].
    eexists. split; [vm_compute; reflexivity|]. exists []. split; reflexivity.
Qed.

(** Where only the third fails, the result is the error of the source's end. *)
(** Full statement: without [lends_aligned]. *)
Theorem C63_sample_fails_partial : forall pl S (PB : parsebuf S) mo fin cap mem w p x a,
  let o := order_of pl (c_endian (p_cfg p)) in
  pl_ok pl -> configured (p_cfg p) w -> sample_ok w x ->
  (sbit w 4 = true -> known_format w) -> (sbit w 24 = true -> sbit w 14 = true) ->
  regs_dumped (s_regs_user (sw_sample x)) -> regs_dumped (s_regs_intr (sw_sample x)) ->
  ~ followed (w_fields o w (pl_host pl) x) [] ->
  len (w_sample o w x) <= usize_max pl -> cap <= isize_max pl ->
  lends_aligned pl mo a \/ o <> pl_host pl ->
  source PB mo fin cap mem p (w_sample o w x) a ->
  fst (parse_sample pl PB p) = Err fin.
Proof.
  intros pl S PB mo fin cap mem w p x a o Hpl Hcf Hok H1 H2 H3 H4 F Hlen Hcap Hl Hs.
  assert (HR : forall rep, contract PB mo fin cap mem rep ->
    Ref mo fin cap rep a (vrel view_sample (ok_sample mo mem pl)) (parse_sample pl PB) (f_sample pl))
    by (intros rep HC; eapply Ref_sample; eassumption).
  assert (Hrf : forall a0, a0 mod 8 = 0 -> 
    Rf a0 (poke_of mo) (mkEnv (p_cfg p) fin) (f_sample pl) (w_sample o w x) 0).
  { intros a0 Ha0. apply (Rf_sample pl Hpl a0 (poke_of mo) (mkEnv (p_cfg p) fin) w Hcf); try assumption.
    now rewrite N.add_0_r. }
  destruct Hl as [Hl|Hl].
  - destruct (fails_aligned pl PB mo fin cap mem _ _ _ _ _ p _ a HR (Hrf 0 eq_refl)
      (evs_sample _ _ _ (fun B FE n => evs_array_own pl _ B FE n)) Hl Hs) as (p' & ->). reflexivity.
  - assert (Hev : evs (fun c => c_endian c = c_endian (p_cfg p)) (fun _ => False) (f_sample pl)).
    { apply evs_sample. intros B E' n. apply evs_array_foreign. intros c ->. exact Hl. }
    destruct (fails_evs PB mo fin cap mem _ _ _ _ _ 0 (poke_of mo) p _ a HR Hev (Hrf 0 eq_refl) Hs) as (p' & ->).
    reflexivity.
Qed.

(** ** C35: TEXT_POKE.  The bytes are split properly except when they were gathered in
    a vector and one side of the split is empty; then the sides are swapped. *)
Theorem C35_outcome : forall pl S (PB : parsebuf S) mo fin cap mem p addr old new pad rest a,
  let o := order_of pl (c_endian (p_cfg p)) in
  let edge := old = [] \/ (new = [] /\ pad = []) in
  let kept r := cow_list (tp_old r) = old /\ cow_list (tp_new r) = new in
  let lost r := (old = [] /\ cow_list (tp_old r) = new ++ pad /\ cow_list (tp_new r) = []) \/
                (new = [] /\ pad = [] /\ cow_list (tp_old r) = [] /\ cow_list (tp_new r) = []) in
  pl_ok pl -> cap <= isize_max pl -> addr < 2 ^ 64 -> len old < 2 ^ 16 -> len new < 2 ^ 16 ->
  len pad = pad8 (12 + len old + len new) ->
  source PB mo fin cap mem p
    (enc o 8 addr ++ enc o 2 (len old) ++ enc o 2 (len new) ++ old ++ new ++ pad ++ rest) a ->
  exists r p', parse_text_poke pl PB p = (Ok r, p') /\ tp_addr r = addr /\
    (kept r \/ lost r) /\ (mo = Whole \/ ~ edge -> kept r) /\ (mo = NoExt -> edge -> lost r) /\
    after PB mo fin cap mem p (12 + len old + len new + len pad) rest a p'.
Proof.
  intros pl S PB mo fin cap mem p addr old new pad rest a o edge kept lost Hpl Hcap H1 H2 H3 Hp Hs.
  destruct (poke_outcome pl S PB mo fin cap mem p addr old new pad rest a) as (r & p' & E & Ha & G1 & G2 & G3 & Haf);
    try assumption.
  { rewrite Hp. unfold pad8. f_equal. f_equal.
    replace (12 + len old + len new) with (4 + len old + len new + 1 * 8) by lia.
    apply N.mod_add. discriminate. }
  exists r, p'. split; [exact E|]. split; [exact Ha|]. split; [exact G1|]. split; [|split; assumption].
  intros [H|H]; apply G2; [now left|right]. unfold edge in H. split; [tauto|].
  destruct new; [|left; discriminate]. destruct pad; [|right; discriminate]. elim H. right. now split.
Qed.

(** From a reader the bytes [4; 5; 6; 7] come back as old, though they are new; with a
    byte of old they come back right. *)
Example C35_outcome_example :
  let d old new := enc LE 8 77 ++ enc LE 2 (len old) ++ enc LE 2 (len new) ++ old ++ new in
  let run old new := fst (parse_text_poke pl64 bufreader_buf (reader_of [d old new] ex_cfg)) in
  source bufreader_buf NoExt eof_error (isize_max pl64) (fun _ => 0)
    (reader_of [d [] [4; 5; 6; 7]] ex_cfg) (d [] [4; 5; 6; 7]) 0 /\
  len (@nil N) = pad8 (12 + len (@nil N) + len [4; 5; 6; 7]) /\
  (exists r, run [] [4; 5; 6; 7] = Ok r /\ cow_list (tp_old r) = [4; 5; 6; 7] /\ cow_list (tp_new r) = []) /\
  (exists r, run [3] [5; 6; 7] = Ok r /\ cow_list (tp_old r) = [3] /\ cow_list (tp_new r) = [5; 6; 7]).
Proof.
  cbv zeta. split.
  { set (d := enc LE 8 77 ++ enc LE 2 (len []) ++ enc LE 2 (len [4; 5; 6; 7]) ++ [] ++ [4; 5; 6; 7]).
    apply (reader_source [] [d] None); try (vm_compute; congruence); repeat constructor; discriminate. }
  split; [reflexivity|]. split; (eexists; split; [vm_compute; reflexivity|split; reflexivity]).
Qed.

(** The two outcomes differ. *)
Lemma lost_not_kept : forall old new pad r, len pad = pad8 (4 + len old + len new) ->
  poke_lost old new pad r -> ~ poke_kept old new r.
Proof.
  intros old new pad r Hp [(-> & H1 & H2)|(-> & -> & H1 & H2)] [H3 H4].
  - rewrite H3 in H1. symmetry in H1. apply app_eq_nil in H1 as [-> ->]. discriminate Hp.
  - rewrite H1 in H3. subst old. discriminate Hp.
Qed.

(** ** C63: records.

    Where a source may lend some of its bytes but not all in one piece, a TEXT_POKE
    with an empty part can go either way (C35); such records are left aside here. *)
Definition settled (mo : mode) (b : wbody) : Prop :=
  match b with
  | WTextPoke r => match mo with Coh | AnyExt => ~ poke_edge r | _ => True end
  | _ => True
  end.

(** What it takes to read [b] back.  The sample_id of an MMAP record must be nothing
    but zero bytes, since it is taken for a part of the name. *)
Definition record_readable (mo : mode) (host o : order) (w : settings) (si : sample_id) (b : wbody) : Prop :=
  match b with
  | WMmap _ _ => Forall (eq 0) (w_sample_id o w si)
  | WRead _ => known_format w
  | WSample x => sample_readable host o w x []
  | WSwitch => False
  | WNamespaces r => o = host -> nss_entries r <> []
  | WTextPoke r => mo = NoExt -> ~ poke_edge r
  | WOther _ d => d <> []
  | _ => True
  end.

Lemma strip_name : forall f k t, last f 1 <> 0 -> (strip (w_str f k ++ t) = f <-> Forall (eq 0) t).
Proof.
  intros f k t Hl. unfold w_str. rewrite <- app_assoc. split.
  - intros E. destruct (PropsPrim.strip_spec (f ++ zeros k ++ t)) as (n & E1 & _). rewrite E in E1.
    apply app_inv_head in E1.
    assert (H : Forall (eq 0) (zeros k ++ t)).
    { rewrite E1. apply Forall_forall. intros z Hz. symmetry. now apply repeat_spec in Hz. }
    now apply Forall_app in H.
  - intros H. assert (E : zeros k ++ t = zeros (k + len t)).
    { unfold zeros. rewrite N2Nat.inj_add, repeat_app. f_equal. unfold len. rewrite Nat2N.id.
      clear - H. induction H as [|z l <- _ IH]; [reflexivity|]. cbn [length repeat]. now rewrite <- IH. }
    rewrite E. now apply strip_str.
Qed.

Lemma enum_inv : forall pl S (PB : parsebuf S) p r p', parse_record_enum pl PB p = (Ok r, p') ->
  exists b md, collect pl PB p = (Ok (b, md), p') /\
    r = match b with BUnknown d => RUnknown (md_ty md) d | _ => RBody b end.
Proof.
  intros pl S PB p r p' E. unfold parse_record_enum in E. rewrite record_eq in E.
  apply bind_inv in E as ([b md] & p1 & E1 & E2). unfold lift in E2. injection E2 as E2 <-.
  exists b, md. split; [exact E1|]. destruct b; cbn in E2; congruence.
Qed.

(** The name of an MMAP record is all that follows its fixed part, less the zero
    bytes at the end. *)
Theorem C21_mmap_name_refuted : forall pl S (PB : parsebuf S) mo fin cap mem w p m si r k rest a,
  let o := order_of pl (c_endian (p_cfg p)) in
  pl_ok pl -> m < 2 ^ 16 -> wbody_ok w m (WMmap r k) -> len (w_record o w m si (WMmap r k)) < 2 ^ 16 ->
  source PB mo fin cap mem p (w_record o w m si (WMmap r k) ++ rest) a ->
  exists c p' n, parse_record_enum pl PB p = (Ok (RBody (BMmap c)), p') /\
    mm_pid c = mm_pid r /\ mm_tid c = mm_tid r /\ mm_addr c = mm_addr r /\ mm_len c = mm_len r /\
    mm_pgoff c = mm_pgoff r /\
    cow_list (mm_filename c) ++ repeat 0 n = mm_filename r ++ zeros k ++ w_sample_id o w si /\
    last (cow_list (mm_filename c)) 1 <> 0.
Proof.
  intros pl S PB mo fin cap mem w p m si r k rest a o Hpl Hm Hok Hlen Hs.
  destruct (mmap_reads pl PB mo fin cap mem Hpl _ record_visitor w p m si r k rest a Hm Hok Hlen Hs)
    as (c & p' & E & Hv).
  destruct (PropsPrim.strip_spec (w_str (mm_filename r) k ++ w_sample_id o w si)) as (n & E1 & E2).
  fold o in Hv. unfold view_mmap, with_name in Hv. injection Hv as H1 H2 H3 H4 H5 H6.
  exists c, p', n. split; [exact E|]. repeat (split; [assumption|]).
  rewrite H6. split; [|exact E2]. rewrite <- E1. unfold w_str. now rewrite app_assoc.
Qed.

(** Full statement: without [lends_fine] and [settled]; see C63_memory_refuted (PropsReader.v) and C35_outcome. *)
Theorem C63_record_partial : forall pl S (PB : parsebuf S) mo fin cap mem w p m si b rest a,
  let o := order_of pl (c_endian (p_cfg p)) in
  pl_ok pl -> configured (p_cfg p) w -> m < 2 ^ 16 -> sample_id_ok w si -> wbody_ok w m b ->
  len (w_record o w m si b) < 2 ^ 16 -> lends_fine pl mo (p_cfg p) a b -> settled mo b ->
  source PB mo fin cap mem p (w_record o w m si b ++ rest) a ->
  (exists r p', parse_record_enum pl PB p = (Ok r, p') /\ view_record r = expected_record b) <->
  record_readable mo (pl_host pl) o w si b.
Proof.
  intros pl S PB mo fin cap mem w p m si b rest a o Hpl Hcf Hm Hsi Hok Hlen Hl Hst Hs.
  assert (Hmm : forall r k, b = WMmap r k ->
    ((exists r p', parse_record_enum pl PB p = (Ok r, p') /\ view_record r = expected_record b) <->
     record_readable mo (pl_host pl) o w si b)).
  { intros r k ->. cbn [record_readable].
    destruct (mmap_reads pl PB mo fin cap mem Hpl _ record_visitor w p m si r k rest a Hm Hok Hlen Hs)
      as (c & p' & E & Hv). fold o in Hv.
    destruct Hok as (_ & _ & _ & _ & _ & _ & Hl1 & _).
    rewrite <- (strip_name (mm_filename r) k _ Hl1). split.
    - intros (x & p2 & E2 & Hx). unfold parse_record_enum in E2. rewrite E in E2.
      injection E2 as <- _. cbn [view_record view_body] in Hx. unfold expected_record in Hx. cbn [expected] in Hx.
      injection Hx as Hx. rewrite Hv in Hx. now apply (f_equal (@mm_filename list)) in Hx.
    - intros Hn. exists (RBody (BMmap c)), p'. split; [exact E|].
      cbn [view_record view_body]. rewrite Hv, Hn. unfold expected_record. cbn [expected].
      destruct r; reflexivity. }
  assert (Hno : ends_empty (pl_host pl) o w b -> 
    ~ exists r p', parse_record_enum pl PB p = (Ok r, p') /\ view_record r = expected_record b).
  { intros He (r & p' & E & _).
    pose proof (record_fails pl PB mo fin cap mem Hpl _ record_visitor w p m si b rest a Hcf Hm Hsi Hok He
      Hlen Hl Hs) as Hf. unfold parse_record_enum in E. rewrite E in Hf. discriminate. }
  assert (Hyes : readable (pl_host pl) o w (poke_of mo) b ->
    exists r p', parse_record_enum pl PB p = (Ok r, p') /\ view_record r = expected_record b).
  { intros Hr. destruct (enum_reads pl S PB mo fin cap mem w p m si b rest a) as (r & p' & E & Hv & _);
      try assumption. eauto. }
  destruct b; cbn [record_readable]; cbn [readable] in Hyes; cbn [ends_empty] in Hno; cbn [settled] in Hst;
    try (split; [intros _; exact I|intros _; apply Hyes; exact I]).
  - eapply Hmm. reflexivity.
  - (* READ *) split; [|exact Hyes]. intros (x & p' & E & Hx).
    apply enum_inv in E as (b & md & E & ->). pose proof (collect_cond _ _ _ _ _ _ _ E) as Hc.
    destruct b; try discriminate. cbn [body_cond] in Hc.
    apply (known_small _ _ Hcf). unfold known in Hc. rewrite with_misc_read_format in Hc. exact Hc.
  - (* SAMPLE *) split; [|exact Hyes]. intros (r & p' & E & Hx).
    pose proof E as E0. apply enum_inv in E as (b & md & E & ->).
    pose proof (collect_cond _ _ _ _ _ _ _ E) as Hc.
    destruct Hs as (rep & HC & Hr & Hw).
    destruct (collect_safe pl PB mo fin cap mem rep a HC Hpl p _ 0 ltac:(rewrite N.add_0_r; exact Hr) Hw)
      as (r1 & p1 & l1 & n1 & E1 & Hg & _).
    rewrite E in E1. injection E1 as <- _. cbn [good fst] in Hg.
    destruct b; try discriminate. cbn [body_cond body_wf] in Hc, Hg. cbn [wbody_ok] in Hok.
    cbn [view_record view_body] in Hx. unfold expected_record in Hx. cbn [expected] in Hx.
    assert (Hv : view_sample r = sw_sample x) by (injection Hx; congruence).
    assert (Hc' : sample_cond (p_cfg p) r).
    { unfold sample_cond, known in *. now rewrite with_misc_read_format, with_misc_sample_type in Hc. }
    destruct (sample_needs _ _ _ _ Hcf Hok Hc' Hg Hv) as (H1 & H2 & H3 & H4).
    split; [exact H1|]. split; [exact H2|]. split; [|now split].
    destruct (followed_dec (w_fields o w (pl_host pl) x) []) as [F|F]; [exact F|exfalso].
    apply Hno; [tauto|]. eauto.
  - (* SWITCH *) split; [|contradiction]. intros H. now apply Hno.
  - (* NAMESPACES *) split; [|exact Hyes]. intros H Eo En. apply Hno; [now split|exact H].
  - (* TEXT_POKE *) split.
    + intros (x & p' & E & Hx) Em He. subst mo.
      destruct (poke_record pl S PB NoExt fin cap mem w p m si r rest a) as (c & p2 & E2 & _ & _ & _ & H);
        try assumption.
      apply enum_inv in E as (b & md & E & ->). rewrite E2 in E. injection E as <- <- _.
      unfold expected_record in Hx. cbn [view_record view_body expected] in Hx. injection Hx as Hx.
      apply (lost_not_kept _ _ _ _ (zeros_len _) (H eq_refl He)).
      subst r. split; reflexivity.
    + intros H. apply Hyes. destruct mo; cbn [poke_of] in *; auto.
  - (* unknown *) split; [|exact Hyes]. intros H En. now apply Hno.
Qed.

(** Where nothing but an empty part at the end is wrong, the result is Eof, whoever
    reads; this includes every SWITCH record with an empty body. *)
(** Full statement: without [lends_fine]. *)
Theorem C63_record_fails_partial : forall pl S (PB : parsebuf S) mo fin cap mem O (V : visitor O) w p m si b rest a,
  let o := order_of pl (c_endian (p_cfg p)) in
  pl_ok pl -> configured (p_cfg p) w -> m < 2 ^ 16 -> sample_id_ok w si -> wbody_ok w m b ->
  ends_empty (pl_host pl) o w b -> len (w_record o w m si b) < 2 ^ 16 ->
  lends_fine pl mo (p_cfg p) a b ->
  source PB mo fin cap mem p (w_record o w m si b ++ rest) a ->
  fst (parse_record pl PB V p) = Err eof_error.
Proof. intros pl S PB mo fin cap mem O V w p m si b rest a o Hpl. now apply record_fails. Qed.

Theorem C26_switch_fails_refuted : forall pl S (PB : parsebuf S) mo fin cap mem O (V : visitor O) w p m si rest a,
  let o := order_of pl (c_endian (p_cfg p)) in
  pl_ok pl -> configured (p_cfg p) w -> m < 2 ^ 16 -> sample_id_ok w si ->
  source PB mo fin cap mem p (w_record o w m si WSwitch ++ rest) a ->
  fst (parse_record pl PB V p) = Err eof_error.
Proof.
  intros pl S PB mo fin cap mem O V w p m si rest a o Hpl Hcf Hm Hsi Hs.
  eapply (record_fails pl PB mo fin cap mem Hpl O V w p m si WSwitch rest a); try eassumption; try exact I.
  - unfold w_record. cbn [w_body w_trailer app]. cbv zeta. rewrite len_app, w_header_len.
    unfold w_sample_id. destruct (ws_id_all w); [|reflexivity]. cbn [w_if].
    rewrite !len_app, !w_if_len, !len_app, !w32_len, !w64_len.
    destruct (sbit w 1), (sbit w 2), (sbit w 6), (sbit w 9), (sbit w 7), (sbit w 16); reflexivity.
  - right; left. exact I.
Qed.

(** ** C63: a stream is read back exactly when each of its records is. *)
Definition item_fits (o : order) (w : settings) (mo : mode) (i : item) : Prop :=
  i_misc i < 2 ^ 16 /\ sample_id_ok w (i_id i) /\ wbody_ok w (i_misc i) (i_body i) /\
  settled mo (i_body i) /\ len (encode o w i) < 2 ^ 16.

(** Full statement: without [stream_lends]. *)
Theorem C63_stream_partial : forall pl S (PB : parsebuf S) mo fin cap mem w is p a,
  let o := order_of pl (c_endian (p_cfg p)) in
  pl_ok pl -> configured (p_cfg p) w -> Forall (item_fits o w mo) is ->
  stream_lends pl mo (p_cfg p) o w a is ->
  source PB mo fin cap mem p (concat (map (encode o w) is)) a ->
  (exists rs, results pl PB (length is + 1) p = map Ok rs ++ [Err fin] /\
     map view_record rs = map (fun i => expected_record (i_body i)) is) <->
  Forall (fun i => record_readable mo (pl_host pl) o w (i_id i) (i_body i)) is.
Proof.
  intros pl S PB mo fin cap mem w is. induction is as [|i is IH]; intros p a o Hpl Hcf Hok Hl Hs.
  - split; [constructor|]. intros _. exists []. split; [|reflexivity].
    cbn [map concat] in Hs. cbn [length Nat.add results map app].
    pose proof (C13_truncated_header pl S PB mo fin cap mem _ record_visitor p [] a eq_refl Hs) as E.
    change (parse_record pl PB record_visitor p) with (parse_record_enum pl PB p) in E.
    destruct (parse_record_enum pl PB p) as [r p']. cbn [fst] in E. now subst r.
  - inversion Hok as [|? ? (H1 & H2 & H3 & H4 & H5) Hok']; subst. destruct Hl as [Hl1 Hl2].
    cbn [map concat] in Hs. cbn [length Nat.add results].
    pose proof (C63_record_partial pl S PB mo fin cap mem w p (i_misc i) (i_id i) (i_body i)
      (concat (map (encode o w) is)) a Hpl Hcf H1 H2 H3 H5 Hl1 H4 Hs) as Hi. fold o in Hi.
    assert (Hfr : let p' := snd (parse_record_enum pl PB p) in
      source PB mo fin cap mem p' (concat (map (encode o w) is)) (a + len (encode o w i)) /\ p_cfg p' = p_cfg p).
    { unfold encode in H5 at 1. unfold encode at 1 in Hs. unfold encode at 2.
      unfold w_record in H5, Hs |- *. cbv zeta in H5, Hs |- *. rewrite <- app_assoc in Hs.
      rewrite len_app, w_header_len in H5 |- *.
      destruct (C01_record_framing pl S PB mo fin cap mem _ record_visitor p (w_type (i_body i)) (i_misc i) _ _ a
        (w_type_small _ _ _ H3) H1 H5 Hs) as (F1 & F2 & _). now split. }
    destruct (parse_record_enum pl PB p) as [r p'] eqn:Er. cbn [snd] in Hfr. destruct Hfr as [Hs' Hc].
    assert (Ho : order_of pl (c_endian (p_cfg p')) = o) by now rewrite Hc.
    specialize (IH p' (a + len (encode o w i)) Hpl).
    cbv zeta in IH. rewrite Ho, Hc in IH. specialize (IH Hcf Hok' Hl2 Hs').
    split.
    + intros (rs & Ers & Ev). destruct rs as [|x rs].
      { cbn [map app] in Ers. destruct is; discriminate Ev. }
      cbn [map app] in Ers, Ev. injection Ers as -> Ers. injection Ev as Ev1 Ev2.
      constructor; [apply Hi; eauto|apply IH; eauto].
    + intros Hf. inversion Hf as [|? ? Hf1 Hf2]; subst.
      apply Hi in Hf1 as (x & p2 & E & Hx). injection E as -> <-.
      apply IH in Hf2 as (rs & Ers & Ev). exists (x :: rs). cbn [map app]. now rewrite Ers, Hx, Ev.
Qed.

(** ** C62: reading leaves the configuration alone, whatever the outcome and whatever
    the buffer does; sub-parsers start with it. *)
Theorem C62_parts : forall pl S (PB : parsebuf S) A (m : M S A) p,
  public pl PB A m -> p_cfg (snd (m p)) = p_cfg p.
Proof.
  intros pl S PB A m p H. revert p. change (kept m).
  destruct H; auto using kept_mmap, kept_lost, kept_comm, kept_exit, kept_throttle, kept_read, kept_sample,
    kept_mmap2, kept_aux, kept_itrace_start, kept_lost_samples, kept_switch_cpu_wide, kept_namespaces,
    kept_ksymbol, kept_bpf_event, kept_cgroup, kept_text_poke, kept_aux_output_hw_id, kept_sample_id,
    kept_read_value, kept_read_group, kept_registers, kept_regs_user, kept_regs_intr, kept_header, kept_u8,
    kept_u16, kept_u32, kept_u64, kept_array, kept_rest, kept_string, kept_skip, kept_bytes, kept_split,
    kept_slice_u64, kept_slice_ns, kept_slice_branch.
Qed.

Theorem C62_records : forall pl S (PB : parsebuf S) O (V : visitor O) p h,
  p_cfg (snd (parse_record pl PB V p)) = p_cfg p /\
  p_cfg (snd (parse_record_with_header pl PB V h p)) = p_cfg p /\
  p_cfg (snd (parse_metadata pl PB p)) = p_cfg p /\
  p_cfg (snd (parse_metadata_with_header pl PB h p)) = p_cfg p /\
  p_cfg (snd (parse_attr pl PB p)) = p_cfg p.
Proof.
  intros. split; [apply kept_record|]. split; [apply kept_record_with_header|].
  split; [apply kept_metadata|]. split; [apply kept_metadata_with_header|apply kept_attr].
Qed.

Theorem C62_sub_parsers : forall pl S (PB : parsebuf S) p n h q md p',
  (split_at PB n p = (Ok q, p') -> p_cfg q = p_cfg p) /\
  (parse_metadata_with_header pl PB h p = (Ok (q, md), p') ->
     p_cfg q = p_cfg p /\ md_misc md = h_misc h /\ md_ty md = h_type h).
Proof. intros. split; [apply split_cfg|apply metadata_cfg]. Qed.

(** Only the misc differs for the body of a record. *)
Theorem C62_misc_only : forall c m, let d := with_misc c m in
  c_endian d = c_endian c /\ sample_type d = sample_type c /\ read_format d = read_format c /\
  sample_id_all d = sample_id_all c /\ branch_hw_index d = branch_hw_index c /\
  c_regs_user d = c_regs_user c /\ c_regs_intr d = c_regs_intr c /\ (m < 2 ^ 16 -> misc d = m).
Proof.
  intros c m d. split; [reflexivity|]. split; [apply with_misc_sample_type|].
  split; [apply with_misc_read_format|]. split; [apply with_misc_id_all|].
  split; [apply with_misc_hw_index|]. split; [reflexivity|]. split; [reflexivity|apply with_misc_misc].
Qed.

(** ** C63: with what the visitor is told about each record, too.  [recorder] keeps all
    it is given. *)
Definition recorder : visitor (body cow * metadata) := {|
  v_unimplemented := fun _ => Panic;
  v_mmap := Some (fun r md => Ok (BMmap r, md));
  v_lost := Some (fun r md => Ok (BLost r, md));
  v_comm := Some (fun r md => Ok (BComm r, md));
  v_exit := Some (fun r md => Ok (BExit r, md));
  v_throttle := Some (fun r md => Ok (BThrottle r, md));
  v_unthrottle := Some (fun r md => Ok (BUnthrottle r, md));
  v_fork := Some (fun r md => Ok (BFork r, md));
  v_read := Some (fun r md => Ok (BRead r, md));
  v_sample := Some (fun r md => Ok (BSample r, md));
  v_mmap2 := Some (fun r md => Ok (BMmap2 r, md));
  v_aux := Some (fun r md => Ok (BAux r, md));
  v_itrace_start := Some (fun r md => Ok (BItraceStart r, md));
  v_lost_samples := Some (fun r md => Ok (BLostSamples r, md));
  v_switch := Some (fun md => Ok (BSwitch, md));
  v_switch_cpu_wide := Some (fun r md => Ok (BSwitchCpuWide r, md));
  v_namespaces := Some (fun r md => Ok (BNamespaces r, md));
  v_ksymbol := Some (fun r md => Ok (BKsymbol r, md));
  v_bpf_event := Some (fun r md => Ok (BBpfEvent r, md));
  v_cgroup := Some (fun r md => Ok (BCgroup r, md));
  v_text_poke := Some (fun r md => Ok (BTextPoke r, md));
  v_aux_output_hw_id := Some (fun r md => Ok (BAuxOutputHwId r, md));
  v_unknown := Some (fun d md => Ok (BUnknown d, md));
|}.

Lemma recorder_all : forall b md, deliver recorder b md = Ok (b, md).
Proof. destruct b; reflexivity. Qed.

Lemma default_no_trailer : forall w, sample_id_ok w sample_id_default -> no_trailer w.
Proof.
  intros w H Hall. unfold sample_id_ok in H. cbv zeta in H. rewrite Hall in H.
  cbn [andb si_pid si_tid si_time si_id si_stream_id si_cpu sample_id_default field] in H.
  destruct H as (H1 & _ & H2 & H3 & H4 & H5). apply orb_false_iff in H3 as [H3 H3']. auto 7.
Qed.

(** Now an MMAP record must come without a sample_id. *)
Definition told_readable (mo : mode) (host o : order) (w : settings) (si : sample_id) (b : wbody) : Prop :=
  match b with WMmap _ _ => no_trailer w | _ => record_readable mo host o w si b end.

(** Full statement: without [lends_fine] and [settled]. *)
Theorem C63_told_partial : forall pl S (PB : parsebuf S) mo fin cap mem w p m si b rest a,
  let o := order_of pl (c_endian (p_cfg p)) in
  pl_ok pl -> configured (p_cfg p) w -> m < 2 ^ 16 -> sample_id_ok w si -> wbody_ok w m b ->
  len (w_record o w m si b) < 2 ^ 16 -> lends_fine pl mo (p_cfg p) a b -> settled mo b ->
  source PB mo fin cap mem p (w_record o w m si b ++ rest) a ->
  (exists bc p', parse_record pl PB recorder p = (Ok (bc, told (mkItem m si b)), p') /\
     view_body bc = expected b) <->
  told_readable mo (pl_host pl) o w si b.
Proof.
  intros pl S PB mo fin cap mem w p m si b rest a o Hpl Hcf Hm Hsi Hok Hlen Hl Hst Hs. split.
  - intros (bc & p' & E & Hv). 
    assert (Hr : record_readable mo (pl_host pl) o w si b).
    { apply (C63_record_partial pl S PB mo fin cap mem w p m si b rest a); try assumption.
      rewrite record_eq in E. apply bind_inv in E as ([b1 md] & p1 & E1 & E2).
      unfold lift in E2. cbn [fst snd] in E2. rewrite recorder_all in E2. injection E2 as -> -> ->.
      unfold parse_record_enum. rewrite record_eq. unfold bind. rewrite E1. unfold lift. cbn [fst snd].
      exists (match bc with BUnknown d => RUnknown (w_type b) d | _ => RBody bc end), p'.
      split; [destruct bc; reflexivity|].
      destruct b, bc; try discriminate Hv; unfold expected_record; cbn [view_record w_type];
        try rewrite Hv; cbn [view_body expected] in Hv; try (injection Hv as <-); reflexivity. }
    destruct b; try exact Hr. cbn [told_readable].
    destruct (mmap_reads pl PB mo fin cap mem Hpl _ recorder w p m si r k rest a Hm Hok Hlen Hs)
      as (c & p2 & E2 & _). rewrite E in E2. cbn [deliver recorder v_mmap call] in E2.
    injection E2 as _ Esi _. cbn [i_id] in Esi. rewrite Esi in Hsi. now apply default_no_trailer.
  - intros Hr.
    assert (Hr' : readable (pl_host pl) o w (poke_of mo) b).
    { destruct b; try exact Hr. cbn [told_readable record_readable settled readable] in *. destruct mo; cbn [poke_of]; auto. }
    destruct (record_reads pl PB mo fin cap mem Hpl _ recorder w p m si b rest a Hcf Hm Hsi Hok Hr' Hlen Hl Hs)
      as (bc & p' & E & Hv & _). rewrite recorder_all in E. eauto.
Qed.

(** Full statement: without [stream_lends]. *)
Theorem C63_visitor_partial : forall pl S (PB : parsebuf S) mo fin cap mem w is p a,
  let o := order_of pl (c_endian (p_cfg p)) in
  pl_ok pl -> configured (p_cfg p) w -> Forall (item_fits o w mo) is ->
  stream_lends pl mo (p_cfg p) o w a is ->
  source PB mo fin cap mem p (concat (map (encode o w) is)) a ->
  (exists bs, visits pl PB recorder (length is + 1) p = map Ok (combine bs (map told is)) ++ [Err fin] /\
     map view_body bs = map (fun i => expected (i_body i)) is) <->
  Forall (fun i => told_readable mo (pl_host pl) o w (i_id i) (i_body i)) is.
Proof.
  intros pl S PB mo fin cap mem w is. induction is as [|i is IH]; intros p a o Hpl Hcf Hok Hl Hs.
  - split; [constructor|]. intros _. exists []. split; [|reflexivity].
    cbn [map concat] in Hs. cbn [length Nat.add visits map app combine].
    pose proof (C13_truncated_header pl S PB mo fin cap mem _ recorder p [] a eq_refl Hs) as E.
    destruct (parse_record pl PB recorder p) as [r p']. cbn [fst] in E. now subst r.
  - inversion Hok as [|? ? (H1 & H2 & H3 & H4 & H5) Hok']; subst. destruct Hl as [Hl1 Hl2].
    cbn [map concat] in Hs. cbn [length Nat.add visits].
    pose proof (C63_told_partial pl S PB mo fin cap mem w p (i_misc i) (i_id i) (i_body i)
      (concat (map (encode o w) is)) a Hpl Hcf H1 H2 H3 H5 Hl1 H4 Hs) as Hi. fold o in Hi.
    assert (Hfr : let p' := snd (parse_record pl PB recorder p) in
      source PB mo fin cap mem p' (concat (map (encode o w) is)) (a + len (encode o w i)) /\ p_cfg p' = p_cfg p).
    { unfold encode in H5 at 1. unfold encode at 1 in Hs. unfold encode at 2.
      unfold w_record in H5, Hs |- *. cbv zeta in H5, Hs |- *. rewrite <- app_assoc in Hs.
      rewrite len_app, w_header_len in H5 |- *.
      destruct (C01_record_framing pl S PB mo fin cap mem _ recorder p (w_type (i_body i)) (i_misc i) _ _ a
        (w_type_small _ _ _ H3) H1 H5 Hs) as (F1 & F2 & _). now split. }
    replace (mkItem (i_misc i) (i_id i) (i_body i)) with i in Hi by now destruct i.
    destruct (parse_record pl PB recorder p) as [r p'] eqn:Er. cbn [snd] in Hfr. destruct Hfr as [Hs' Hc].
    assert (Ho : order_of pl (c_endian (p_cfg p')) = o) by now rewrite Hc.
    specialize (IH p' (a + len (encode o w i)) Hpl).
    cbv zeta in IH. rewrite Ho, Hc in IH. specialize (IH Hcf Hok' Hl2 Hs').
    split.
    + intros (bs & Ers & Ev). destruct bs as [|x bs]; [discriminate Ev|].
      cbn [map app combine] in Ers, Ev. injection Ers as -> Ers. injection Ev as Ev1 Ev2.
      constructor; [|apply IH; eauto].
      assert (G : exists bc p'', (Ok (x, told i), p') = (Ok (bc, told i), p'') /\ view_body bc = expected (i_body i)) by eauto.
      apply Hi in G. exact G.
    + intros Hf. inversion Hf as [|? ? Hf1 Hf2]; subst.
      apply Hi in Hf1 as (x & p2 & E & Hx). injection E as -> <-.
      apply IH in Hf2 as (bs & Ers & Ev). exists (x :: bs). cbn [map app combine]. now rewrite Ers, Hx, Ev.
Qed.

(** ** Examples *)

(** An MMAP whose sample_id is all zeros, a NAMESPACES without entries, a LOST. *)
Definition zero_id : sample_id := mkSampleId (Some 0) (Some 0) (Some 0) None None None.
Definition some_items : list item :=
  [mkItem 1 zero_id (WMmap (mkMmap 1 2 4096 8192 0 [47; 98]) 6);
   mkItem 0 ex_id (WNamespaces (mkNamespaces 1 2 []));
   mkItem 0 ex_id (WLost (mkLost 7 9))].

Example C63_stream_example :
  let d := concat (map (encode LE ex_set) some_items) in
  let p := on_slice 4096 d ex_cfg in
  configured ex_cfg ex_set /\ Forall (item_fits LE ex_set Whole) some_items /\
  stream_lends pl64 Whole ex_cfg LE ex_set 4096 some_items /\
  source slice_buf Whole eof_error (isize_max pl64) (memory_of 4096 d) p d 4096 /\
  map (fun r => match r with Ok r => Some (view_record r) | _ => None end) (results pl64 slice_buf 3 p) =
    [Some (RBody (BMmap (mkMmap 1 2 4096 8192 0 [47; 98]))); None; Some (RBody (BLost (mkLost 7 9)))] /\
  ~ record_readable Whole LE LE ex_set ex_id (WNamespaces (mkNamespaces 1 2 [])) /\
  record_readable Whole LE LE ex_set zero_id (WMmap (mkMmap 1 2 4096 8192 0 [47; 98]) 6).
Proof.
  cbv zeta. split; [repeat split|]. split.
  { repeat constructor; vm_compute; congruence. }
  split; [repeat split; left; reflexivity|]. split.
  { apply slice_source; [| | |apply memory_of_at]; try (vm_compute; congruence). repeat constructor. }
  split; [vm_compute; reflexivity|]. split.
  - intros H. now apply H.
  - vm_compute. repeat constructor.
Qed.

Example C63_visitor_example :
  ~ no_trailer ex_set /\ no_trailer (mkSettings 6 0 false false 0 0).
Proof. split; [|discriminate]. intros H. destruct (H eq_refl) as [E _]. discriminate E. Qed.

(** An empty callchain at the end; the same followed by a byte of something else. *)
Example C63_sample_example :
  let w := mkSettings 32 0 false false 0 0 in
  let x := mkSampleWire (mkSample None None None None None None None None None None (Some [])
    None None None None None None None None None None None None None None) None [] in
  let c := mkConfig (cf_new 0 32 false false 0) 0 0 Little in
  let run d := fst (parse_sample pl64 slice_buf (on_slice 4096 d c)) in
  configured c w /\ sample_ok w x /\
  ~ sample_readable LE LE w x [] /\ run (w_sample LE w x) = Err eof_error /\
  sample_readable LE LE w x [1] /\
  (exists s, run (w_sample LE w x ++ [1]) = Ok s /\ view_sample s = sw_sample x).
Proof.
  cbv zeta. split; [repeat split|]. split; [repeat first [constructor | reflexivity | discriminate]|].
  split.
  { intros (_ & _ & F & _). repeat (destruct F as [F0 F]; try (now apply F0)); vm_compute in *; tauto. }
  split; [vm_compute; reflexivity|]. split.
  { split; [discriminate|]. split; [discriminate|]. split; [apply followed_rest; discriminate|]. split; exact I. }
  eexists. split; vm_compute; reflexivity.
Qed.

Example C63_record_example :
  settled Coh (WTextPoke (mkTextPoke 1 [1] [2; 3])) /\
  ~ record_readable NoExt LE LE ex_set ex_id (WTextPoke (mkTextPoke 1 [] [2; 3])) /\
  record_readable NoExt LE BE ex_set ex_id (WNamespaces (mkNamespaces 1 2 [])) /\
  ends_empty LE LE ex_set (WOther 99 []) /\ wbody_ok ex_set 0 (WOther 99 []).
Proof.
  split; [intros [H|[H _]]; discriminate|]. split; [intros H; apply H; [reflexivity|now left]|].
  split; [discriminate|].
  split; [reflexivity|]. split; [right; reflexivity|]. split; [reflexivity|constructor].
Qed.

(** A buffer that errs once and then goes on. *)
Example C62_example :
  let p := reader_of [[1; 2; 3]] ex_cfg in
  fst (parse_u32 pl64 bufreader_buf p) = Err eof_error /\
  p_cfg (snd (parse_u32 pl64 bufreader_buf p)) = ex_cfg /\
  misc (with_misc ex_cfg 13) = 13.
Proof. vm_compute. auto. Qed.

Print Assumptions C63_sample_partial.
Print Assumptions C63_group_partial.
Print Assumptions C63_sample_fails_partial.
Print Assumptions C35_outcome.
Print Assumptions C21_mmap_name_refuted.
Print Assumptions C63_record_partial.
Print Assumptions C63_record_fails_partial.
Print Assumptions C26_switch_fails_refuted.
Print Assumptions C63_stream_partial.
Print Assumptions C62_parts.
Print Assumptions C62_records.
Print Assumptions C62_sub_parsers.
Print Assumptions C62_misc_only.
Print Assumptions C63_told_partial.
Print Assumptions C63_visitor_partial.
