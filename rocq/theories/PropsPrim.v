(** Theorems: integers, byte strings, arrays and Cows (C05, C06, C07, C08, C10, C34). *)
From Coq Require Import NArith List Bool Lia.
From Verif Require Import Base BaseFacts Types Platform Config Buf Parser Contract Flat Refine.
From Verif Require Import Instances Prims Slices Records Sample Record Views RefRecords.
From Verif Require Import Wire Codec Spec FrameFacts ExData.
Import ListNotations.
Open Scope N_scope.

(** ** C05: integers. *)

Lemma uint_after : forall pl S (PB : parsebuf S) mo fin cap mem (n : nat) (m : M S N) p v rest a,
  let o := order_of pl (c_endian (p_cfg p)) in
  (forall rep a0, contract PB mo fin cap mem rep ->
     Ref mo fin cap rep a0 eq m (f_uint pl (N.of_nat n))) ->
  (0 < n)%nat -> v < 256 ^ N.of_nat n -> source PB mo fin cap mem p (enc o n v ++ rest) a ->
  exists p', m p = (Ok v, p') /\ after PB mo fin cap mem p (N.of_nat n) rest a p'.
Proof.
  intros pl S PB mo fin cap mem n m p v rest a o HR Hn Hv (rep & HC & Hr & Hw).
  assert (E : f_uint pl (N.of_nat n) (mkEnv (p_cfg p) fin) (enc o n v ++ rest) 0 =
    FOk v rest (N.of_nat n) []).
  { unfold f_uint, fbind, fcfg, fret, f_take. cbn [fe_cfg fe_fin]. fold o.
    assert (Hl : len (enc o n v ++ rest) = N.of_nat n + len rest)
      by now rewrite len_app, enc_len.
    destruct (enc o n v ++ rest) as [|b t] eqn:El;
      [rewrite len_nil in Hl; lia|]. rewrite <- El in *. rewrite Hl.
    rewrite (proj2 (N.ltb_ge _ _)) by lia.
    rewrite take_app_exact, drop_app_exact by now rewrite enc_len.
    rewrite from_enc by assumption. reflexivity. }
  destruct (run_ok mo fin cap rep _ _ _ _ _ _ _ _ _ _ _ _ (HR rep a HC) Hr Hw E ltac:(constructor))
    as (v' & p' & Ep & -> & Hs).
  exists p'. split; [exact Ep|]. eapply step_after; eassumption.
Qed.

Lemma uint_short : forall pl S (PB : parsebuf S) mo fin cap mem n (m : M S N) p l a,
  (forall rep a0, contract PB mo fin cap mem rep -> Ref mo fin cap rep a0 eq m (f_uint pl n)) ->
  source PB mo fin cap mem p l a -> len l < n ->
  exists p', m p = (Err fin, p') /\ after PB mo fin cap mem p (len l) [] a p'.
Proof.
  intros pl S PB mo fin cap mem n m p l a HR (rep & HC & Hr & Hw) Hl.
  assert (E : f_uint pl n (mkEnv (p_cfg p) fin) l 0 = FErr fin [] (len l) []).
  { unfold f_uint, fbind, f_take. cbn [fe_fin].
    destruct l as [|b t]; [reflexivity|]. rewrite (proj2 (N.ltb_lt _ _)) by exact Hl. reflexivity. }
  destruct (run_err mo fin cap rep _ _ _ _ _ _ _ _ _ _ _ _ (HR rep a HC) Hr Hw E ltac:(constructor))
    as (p' & Ep & Hs).
  exists p'. split; [exact Ep|]. eapply step_after; eassumption.
Qed.

Theorem C05_u8 : forall pl S (PB : parsebuf S) mo fin cap mem p v rest a,
  let o := order_of pl (c_endian (p_cfg p)) in
  v < 2 ^ 8 -> source PB mo fin cap mem p (w8 o v ++ rest) a ->
  exists p', parse_u8 PB p = (Ok v, p') /\ after PB mo fin cap mem p 1 rest a p'.
Proof.
  intros pl S PB mo fin cap mem p v rest a o Hv H.
  apply (uint_after pl S PB mo fin cap mem 1); [|lia|exact Hv|exact H].
  intros rep a0 HC. now apply (Ref_u8 pl PB mo fin cap mem rep a0 HC).
Qed.

Theorem C05_u16 : forall pl S (PB : parsebuf S) mo fin cap mem p v rest a,
  let o := order_of pl (c_endian (p_cfg p)) in
  v < 2 ^ 16 -> source PB mo fin cap mem p (w16 o v ++ rest) a ->
  exists p', parse_u16 pl PB p = (Ok v, p') /\ after PB mo fin cap mem p 2 rest a p'.
Proof.
  intros pl S PB mo fin cap mem p v rest a o Hv H.
  apply (uint_after pl S PB mo fin cap mem 2); [|lia|exact Hv|exact H].
  intros rep a0 HC. now apply (Ref_u16 pl PB mo fin cap mem rep a0 HC).
Qed.

Theorem C05_u32 : forall pl S (PB : parsebuf S) mo fin cap mem p v rest a,
  let o := order_of pl (c_endian (p_cfg p)) in
  v < 2 ^ 32 -> source PB mo fin cap mem p (w32 o v ++ rest) a ->
  exists p', parse_u32 pl PB p = (Ok v, p') /\ after PB mo fin cap mem p 4 rest a p'.
Proof.
  intros pl S PB mo fin cap mem p v rest a o Hv H.
  apply (uint_after pl S PB mo fin cap mem 4); [|lia|exact Hv|exact H].
  intros rep a0 HC. now apply (Ref_u32 pl PB mo fin cap mem rep a0 HC).
Qed.

Theorem C05_u64 : forall pl S (PB : parsebuf S) mo fin cap mem p v rest a,
  let o := order_of pl (c_endian (p_cfg p)) in
  v < 2 ^ 64 -> source PB mo fin cap mem p (w64 o v ++ rest) a ->
  exists p', parse_u64 pl PB p = (Ok v, p') /\ after PB mo fin cap mem p 8 rest a p'.
Proof.
  intros pl S PB mo fin cap mem p v rest a o Hv H.
  apply (uint_after pl S PB mo fin cap mem 8); [|lia|exact Hv|exact H].
  intros rep a0 HC. now apply (Ref_u64 pl PB mo fin cap mem rep a0 HC).
Qed.

(** Every byte string is the encoding of one number in each order, so the above
    say what is read from any source that holds enough. *)
Theorem C05_every_string_encodes : forall o n l, bytes l -> length l = n ->
  exists v, v < 2 ^ (8 * N.of_nat n) /\ enc o n v = l /\
    forall v', v' < 2 ^ (8 * N.of_nat n) -> enc o n v' = l -> v' = v.
Proof.
  intros o n l Hb Hl. exists (from_order o l).
  replace (2 ^ (8 * N.of_nat n)) with (256 ^ N.of_nat n)
    by (rewrite N.pow_mul_r; reflexivity).
  assert (Hn : len l = N.of_nat n) by (unfold len; now rewrite Hl).
  split; [|split].
  - rewrite <- Hn. destruct o; [now apply from_le_bound|now apply from_be_bound].
  - now apply enc_from.
  - intros v' Hv' <-. symmetry. now apply from_enc.
Qed.

(** A source that holds less gives its error. *)
Theorem C05_short : forall pl S (PB : parsebuf S) mo fin cap mem p l a,
  source PB mo fin cap mem p l a ->
  (len l < 2 -> exists p', parse_u16 pl PB p = (Err fin, p') /\
     after PB mo fin cap mem p (len l) [] a p') /\
  (len l < 4 -> exists p', parse_u32 pl PB p = (Err fin, p') /\
     after PB mo fin cap mem p (len l) [] a p') /\
  (len l < 8 -> exists p', parse_u64 pl PB p = (Err fin, p') /\
     after PB mo fin cap mem p (len l) [] a p').
Proof.
  intros pl S PB mo fin cap mem p l a Hs.
  split; [|split]; intros Hl; eapply uint_short; eauto; intros rep a0 HC.
  - now apply (Ref_u16 pl PB mo fin cap mem rep a0 HC).
  - now apply (Ref_u32 pl PB mo fin cap mem rep a0 HC).
  - now apply (Ref_u64 pl PB mo fin cap mem rep a0 HC).
Qed.

(** A number across three chunks. *)
Example C05_example :
  let p := reader_of [[1; 2]; [3]; [4; 0; 0; 0; 0; 9]] ex_cfg in
  source bufreader_buf NoExt eof_error 16384 (fun _ => 0) p (w64 LE 67305985 ++ [9]) 0 /\
  fst (parse_u64 pl64 bufreader_buf p) = Ok 67305985.
Proof.
  split; [|vm_compute; reflexivity].
  apply (reader_source [] [[1; 2]; [3]; [4; 0; 0; 0; 0; 9]] None); try (vm_compute; congruence);
    repeat constructor; discriminate.
Qed.

(** ** C06: the host's byte order. *)
Theorem C06_is_native : forall pl e,
  is_native pl e = true <-> order_of pl e = pl_host pl.
Proof.
  intros pl e. rewrite is_native_order. destruct (order_of pl e), (pl_host pl); cbn; split; congruence.
Qed.

(** Reading an element with the parser gives what the host sees in its bytes. *)
Theorem C06_elements : forall pl S (PB : parsebuf S) mo fin cap mem p d rest a,
  is_native pl (c_endian (p_cfg p)) = true -> source PB mo fin cap mem p (d ++ rest) a ->
  (len d = 8 -> exists p',
     el_parse (elem_u64 pl) PB p = (Ok (el_native (elem_u64 pl) d), p') /\
     after PB mo fin cap mem p 8 rest a p') /\
  (len d = 16 -> exists p',
     el_parse (elem_ns pl) PB p = (Ok (el_native (elem_ns pl) d), p') /\
     after PB mo fin cap mem p 16 rest a p') /\
  (len d = 24 -> exists p',
     el_parse (elem_branch pl) PB p = (Ok (el_native (elem_branch pl) d), p') /\
     after PB mo fin cap mem p 24 rest a p').
Proof.
  intros pl S PB mo fin cap mem p d rest a Hn (rep & HC & Hr & Hw).
  apply C06_is_native in Hn.
  assert (G : forall B (FE : felem B) (m : M S B), len d = fl_size FE -> 0 < len d ->
    Ref mo fin cap rep a eq m (f_elem pl FE) ->
    exists p', m p = (Ok (fl_dec FE (pl_host pl) d), p') /\
      after PB mo fin cap mem p (fl_size FE) rest a p').
  { intros B FE m Hl Hp HR.
    assert (E : f_elem pl FE (mkEnv (p_cfg p) fin) (d ++ rest) 0 =
      FOk (fl_dec FE (pl_host pl) d) rest (fl_size FE) []).
    { rewrite f_elem_eq by lia. unfold env_order. cbn [fe_cfg fe_fin]. rewrite Hn.
      rewrite len_app, (proj2 (N.ltb_ge _ _)) by lia.
      rewrite take_app_exact, drop_app_exact by lia. reflexivity. }
    destruct (run_ok mo fin cap rep _ _ _ _ _ _ _ _ _ _ _ _ HR Hr Hw E ltac:(constructor))
      as (v & p' & Ep & -> & Hs).
    exists p'. split; [exact Ep|]. eapply step_after; eassumption. }
  assert (U : Ref mo fin cap rep a eq (parse_u64 pl PB) (f_uint pl 8))
    by now apply (Ref_u64 pl PB mo fin cap mem rep a HC).
  split; [|split]; intros Hl.
  - apply (G _ fl_u64); [exact Hl|lia|exact U].
  - apply (G _ fl_ns); [exact Hl|lia|].
    eapply Ref_ext; [intros; apply f_ns_eq|]. cbn [el_parse elem_ns]. unfold parse_ns_entry.
    eapply Ref_bind; [exact U|]. intros x ? <-. eapply Ref_bind; [exact U|]. intros y ? <-.
    now apply Ref_ret.
  - apply (G _ fl_branch); [exact Hl|lia|].
    eapply Ref_ext; [intros; apply f_branch_eq|]. cbn [el_parse elem_branch].
    unfold parse_branch_entry.
    eapply Ref_bind; [exact U|]. intros x ? <-. eapply Ref_bind; [exact U|]. intros y ? <-.
    eapply Ref_bind; [exact U|]. intros z ? <-. now apply Ref_ret.
Qed.

Example C06_example :
  is_native pl64 (c_endian ex_cfg) = true /\ is_native (mkPlatform BE 64 Align8) (c_endian ex_cfg) = false /\
  el_native (elem_ns pl64) (w_ns LE (mkNs 5 77)) = mkNs 5 77 /\
  fst (el_parse (elem_ns pl64) slice_buf (on_slice 0 (w_ns LE (mkNs 5 77)) ex_cfg)) = Ok (mkNs 5 77).
Proof. repeat split. Qed.

(** ** C07: [parse_bytes].

    Full statement: [parse_bytes n] gives the next [n] bytes if the source holds
    that many and otherwise its error.  It fails for [n = 0] at the end of the
    source ([C07_parse_bytes_refuted]). *)
Theorem C07_parse_bytes_partial : forall pl S (PB : parsebuf S) mo fin cap mem p d rest a,
  cap <= isize_max pl ->
  d ++ rest <> [] -> source PB mo fin cap mem p (d ++ rest) a ->
  exists c p', parse_bytes pl PB (len d) p = (Ok c, p') /\ cow_list c = d /\
    after PB mo fin cap mem p (len d) rest a p'.
Proof.
  intros pl S PB mo fin cap mem p d rest a Hcap Hne (rep & HC & Hr & Hw).
  assert (E : f_take (len d) (mkEnv (p_cfg p) fin) (d ++ rest) 0 = FOk d rest (len d) []).
  { unfold f_take. destruct (d ++ rest) as [|b t] eqn:El; [congruence|]. rewrite <- El.
    rewrite len_app, (proj2 (N.ltb_ge _ _)) by lia.
    rewrite take_app_exact, drop_app_exact by reflexivity. reflexivity. }
  destruct (run_ok mo fin cap rep _ _ _ _ _ _ _ _ _ _ _ _
    (Ref_bytes pl PB mo fin cap mem rep a HC Hcap (len d)) Hr Hw E ltac:(constructor))
    as (c & p' & Ep & [Hc _] & Hs).
  exists c, p'. repeat (split; [assumption|]). eapply step_after; eassumption.
Qed.

Theorem C07_short : forall pl S (PB : parsebuf S) mo fin cap mem p l n a,
  cap <= isize_max pl -> source PB mo fin cap mem p l a -> len l < n ->
  exists p', parse_bytes pl PB n p = (Err fin, p') /\ after PB mo fin cap mem p (len l) [] a p'.
Proof.
  intros pl S PB mo fin cap mem p l n a Hcap (rep & HC & Hr & Hw) Hl.
  assert (E : f_take n (mkEnv (p_cfg p) fin) l 0 = FErr fin [] (len l) []).
  { unfold f_take. destruct l as [|b t]; [reflexivity|].
    rewrite (proj2 (N.ltb_lt _ _)) by exact Hl. reflexivity. }
  destruct (run_err mo fin cap rep _ _ _ _ _ _ _ _ _ _ _ _
    (Ref_bytes pl PB mo fin cap mem rep a HC Hcap n) Hr Hw E ltac:(constructor))
    as (p' & Ep & Hs).
  exists p'. split; [assumption|]. eapply step_after; eassumption.
Qed.

Theorem C07_parse_bytes_refuted :
  exists pl S (PB : parsebuf S) mo mem p,
    source PB mo eof_error (isize_max pl) mem p [] 0 /\
    fst (parse_bytes pl PB 0 p) = Err eof_error.
Proof.
  exists pl64, slice, slice_buf, Whole, (fun _ => 0), (on_slice 0 [] ex_cfg).
  split; [|vm_compute; reflexivity].
  apply slice_source; [constructor|reflexivity|vm_compute; congruence|apply mem_at_nil].
Qed.

Example C07_example :
  let p := reader_of [[1; 2]; [3]; [4; 5]] ex_cfg in
  source bufreader_buf NoExt eof_error (isize_max pl64) (fun _ => 0) p ([1; 2; 3; 4] ++ [5]) 0 /\
  fst (parse_bytes pl64 bufreader_buf 4 p) = Ok (Owned [1; 2; 3; 4]).
Proof.
  split; [|vm_compute; reflexivity].
  apply (reader_source [] [[1; 2]; [3]; [4; 5]] None); try (vm_compute; congruence);
    repeat constructor; discriminate.
Qed.

(** ** C08: [parse_rest] and [parse_rest_trim_nul].

    Full statement: they give everything that is left.  On a source with nothing
    left they fail ([C08_parse_rest_refuted]). *)
Theorem C08_parse_rest_partial : forall S (PB : parsebuf S) mo fin cap mem p l a,
  is_eof fin = true -> l <> [] -> source PB mo fin cap mem p l a ->
  exists c p', parse_rest PB p = (Ok c, p') /\ cow_list c = l /\
    after PB mo fin cap mem p (len l) [] a p'.
Proof.
  intros S PB mo fin cap mem p l a Hf Hne (rep & HC & Hr & Hw).
  assert (E : f_rest (mkEnv (p_cfg p) fin) l 0 = FOk l [] (len l) []).
  { unfold f_rest. cbn [fe_fin]. rewrite Hf. destruct l; [congruence|reflexivity]. }
  destruct (run_ok mo fin cap rep _ _ _ _ _ _ _ _ _ _ _ _
    (Ref_rest PB mo fin cap mem rep a HC) Hr Hw E ltac:(constructor))
    as (c & p' & Ep & [Hc _] & Hs).
  exists c, p'. repeat (split; [assumption|]). eapply step_after; eassumption.
Qed.

Lemma skip_zeros_spec : forall l, exists k, l = repeat 0 k ++ skip_zeros l /\
  hd 1 (skip_zeros l) <> 0.
Proof.
  induction l as [|b t (k & IH & H)]; cbn [skip_zeros].
  - exists O. cbn. split; [reflexivity|discriminate].
  - destruct (N.eqb_spec b 0) as [->|Hb].
    + exists (Datatypes.S k). cbn [repeat app]. now rewrite <- IH.
    + exists O. split; [reflexivity|exact Hb].
Qed.

Lemma repeat_snoc : forall A (x : A) k, repeat x k ++ [x] = x :: repeat x k.
Proof. induction k; cbn; [reflexivity|]. now rewrite IHk. Qed.

Lemma rev_repeat : forall A (x : A) k, rev (repeat x k) = repeat x k.
Proof. induction k; cbn; [reflexivity|]. now rewrite IHk, repeat_snoc. Qed.

Lemma last_rev : forall A (d : A) l, last (rev l) d = hd d l.
Proof. intros A d [|x t]; [reflexivity|]. cbn [rev hd]. apply last_last. Qed.

Lemma strip_spec : forall l, exists k, l = strip l ++ repeat 0 k /\ last (strip l) 1 <> 0.
Proof.
  intros l. destruct (skip_zeros_spec (rev l)) as (k & E & H). exists k. unfold strip.
  split.
  - apply (f_equal (@rev N)) in E. rewrite rev_involutive, rev_app_distr, rev_repeat in E. exact E.
  - now rewrite last_rev.
Qed.

(** The string is everything, less some zero bytes at its end, and does not end in
    a zero byte. *)
Theorem C08_trim_partial : forall S (PB : parsebuf S) mo fin cap mem p l a,
  is_eof fin = true -> l <> [] -> source PB mo fin cap mem p l a ->
  exists c k p', parse_rest_trim_nul PB p = (Ok c, p') /\
    l = cow_list c ++ repeat 0 k /\ last (cow_list c) 1 <> 0 /\
    after PB mo fin cap mem p (len l) [] a p'.
Proof.
  intros S PB mo fin cap mem p l a Hf Hne (rep & HC & Hr & Hw).
  assert (E : f_string (mkEnv (p_cfg p) fin) l 0 = FOk (strip l) [] (len l) []).
  { unfold f_string, f_rest, fbind, fret. cbn [fe_fin]. rewrite Hf. destruct l; [congruence|reflexivity]. }
  destruct (run_ok mo fin cap rep _ _ _ _ _ _ _ _ _ _ _ _
    (Ref_string PB mo fin cap mem rep a HC) Hr Hw E ltac:(constructor))
    as (c & p' & Ep & [Hc _] & Hs).
  destruct (strip_spec l) as (k & El & Hl).
  exists c, k, p'. rewrite Hc. repeat (split; [assumption|]). eapply step_after; eassumption.
Qed.

(** A source which ends in another error than Eof reports it. *)
Theorem C08_error : forall S (PB : parsebuf S) mo fin cap mem p l a,
  is_eof fin = false -> source PB mo fin cap mem p l a ->
  (exists p', parse_rest PB p = (Err fin, p')) /\
  (exists p', parse_rest_trim_nul PB p = (Err fin, p')).
Proof.
  intros S PB mo fin cap mem p l a Hf (rep & HC & Hr & Hw).
  assert (E : f_rest (mkEnv (p_cfg p) fin) l 0 = FErr fin [] (len l) []).
  { unfold f_rest. cbn [fe_fin]. rewrite Hf. destruct l; reflexivity. }
  assert (E2 : f_string (mkEnv (p_cfg p) fin) l 0 = FErr fin [] (len l) []).
  { unfold f_string, fbind. rewrite E. reflexivity. }
  split.
  - destruct (run_err mo fin cap rep _ _ _ _ _ _ _ _ _ _ _ _
      (Ref_rest PB mo fin cap mem rep a HC) Hr Hw E ltac:(constructor)) as (p' & Ep & _).
    now exists p'.
  - destruct (run_err mo fin cap rep _ _ _ _ _ _ _ _ _ _ _ _
      (Ref_string PB mo fin cap mem rep a HC) Hr Hw E2 ltac:(constructor)) as (p' & Ep & _).
    now exists p'.
Qed.

Theorem C08_parse_rest_refuted :
  exists S (PB : parsebuf S) mo mem p,
    source PB mo eof_error 0 mem p [] 0 /\
    fst (parse_rest PB p) = Err eof_error /\ fst (parse_rest_trim_nul PB p) = Err eof_error.
Proof.
  exists slice, slice_buf, Whole, (fun _ => 0), (on_slice 0 [] ex_cfg).
  split; [|split; vm_compute; reflexivity].
  apply slice_source; [constructor|reflexivity|vm_compute; congruence|apply mem_at_nil].
Qed.

Example C08_example :
  let p := reader_of [[97; 0]; [98]; [0; 0]] ex_cfg in
  source bufreader_buf NoExt eof_error 16384 (fun _ => 0) p [97; 0; 98; 0; 0] 0 /\
  is_eof eof_error = true /\
  fst (parse_rest bufreader_buf p) = Ok (Owned [97; 0; 98; 0; 0]) /\
  fst (parse_rest_trim_nul bufreader_buf p) = Ok (Owned [97; 0; 98]).
Proof.
  split; [|repeat split; vm_compute; reflexivity].
  apply (reader_source [] [[97; 0]; [98]; [0; 0]] None); try (vm_compute; congruence);
    repeat constructor; discriminate.
Qed.

(** ** C10: arrays.

    Full statement: [parse_slice n] gives the next [n] elements, for any buffer and
    alignment.  It is false of data in the host's byte order if the buffer hands out
    external memory that is not aligned for [u64] ([C10_misaligned_refuted],
    [C10_skipped_refuted]), and if
    there are no elements and nothing else is left ([C10_empty_refuted]). *)

Lemma slice_after : forall pl S (PB : parsebuf S) mo fin cap mem B (E : elem B) (FE : felem B)
  (f : order -> B -> list N) p (xs : list B) rest a,
  let o := order_of pl (c_endian (p_cfg p)) in
  (forall rep n, contract PB mo fin cap mem rep ->
     Ref mo fin cap rep a (srel mem pl FE) (parse_slice pl PB E n) (f_array pl FE n)) ->
  0 < fl_size FE -> (forall x, len (f o x) = fl_size FE) ->
  Forall (fun x => fl_dec FE o (f o x) = x) xs ->
  (o = pl_host pl ->
     (xs = [] \/ lends_aligned pl mo a) /\ w_list (f o) xs ++ rest <> [] /\
     len xs * fl_size FE <= usize_max pl) ->
  source PB mo fin cap mem p (w_list (f o) xs ++ rest) a ->
  exists c p', parse_slice pl PB E (len xs) p = (Ok c, p') /\ cow_list c = xs /\
    after PB mo fin cap mem p (len xs * fl_size FE) rest a p'.
Proof.
  intros pl S PB mo fin cap mem B E FE f p xs rest a o HR Hpos Hlen Hdec Hnat (rep & HC & Hr & Hw).
  assert (Hl : len (w_list (f o) xs) = len xs * fl_size FE) by now apply w_list_len.
  set (ev := if order_eqb o (pl_host pl) && negb (len xs =? 0) then [ESlice (pl_align pl) 0] else []).
  assert (Ef : f_array pl FE (len xs) (mkEnv (p_cfg p) fin) (w_list (f o) xs ++ rest) 0 =
    FOk xs rest (len xs * fl_size FE) ev).
  { unfold f_array. cbn [fe_cfg fe_fin]. fold o. fold ev. rewrite len_app, Hl.
    replace (order_eqb o (pl_host pl) && (usize_max pl <? len xs * fl_size FE)) with false.
    2:{ symmetry. apply andb_false_iff. destruct (order_eqb o (pl_host pl)) eqn:Eo; [right|auto].
        assert (Ho : o = pl_host pl) by (revert Eo; destruct o, (pl_host pl); cbn; congruence).
        apply N.ltb_ge. now apply Hnat. }
    replace (order_eqb o (pl_host pl) && (len xs * fl_size FE + len rest =? 0)) with false.
    2:{ symmetry. apply andb_false_iff. destruct (order_eqb o (pl_host pl)) eqn:Eo; [right|auto].
        assert (Ho : o = pl_host pl) by (revert Eo; destruct o, (pl_host pl); cbn; congruence).
        apply N.eqb_neq. destruct (Hnat Ho) as (_ & Hne & _).
        apply len_pos in Hne. rewrite len_app, Hl in Hne. lia. }
    rewrite (proj2 (N.ltb_ge _ _)) by lia.
    rewrite take_app_exact, drop_app_exact by (symmetry; exact Hl).
    rewrite decode_list by assumption. reflexivity. }
  assert (Hev : Forall (ev_ok mo a) ev).
  { subst ev. destruct (order_eqb o (pl_host pl)) eqn:Eo; [|constructor].
    assert (Ho : o = pl_host pl) by (revert Eo; destruct o, (pl_host pl); cbn; congruence).
    destruct (N.eqb_spec (len xs) 0) as [H0|H0]; [constructor|].
    destruct (Hnat Ho) as ([->|Ha] & _); [now elim H0|].
    constructor; [|constructor]. cbn [ev_ok]. rewrite N.add_0_r. destruct mo; try exact Ha; easy. }
  destruct (run_ok mo fin cap rep _ _ _ _ _ _ _ _ _ _ _ _ (HR rep (len xs) HC) Hr Hw Ef Hev)
    as (c & p' & Ep & [Hc _] & Hs).
  exists c, p'. repeat (split; [assumption|]). eapply step_after; eassumption.
Qed.

Theorem C10_u64_partial : forall pl S (PB : parsebuf S) mo fin cap mem p xs rest a,
  let o := order_of pl (c_endian (p_cfg p)) in
  cap <= isize_max pl -> Forall (fun x => x < 2 ^ 64) xs ->
  (o = pl_host pl -> (xs = [] \/ lends_aligned pl mo a) /\ w_list (w64 o) xs ++ rest <> [] /\
     len xs * 8 <= usize_max pl) ->
  source PB mo fin cap mem p (w_list (w64 o) xs ++ rest) a ->
  exists c p', parse_slice pl PB (elem_u64 pl) (len xs) p = (Ok c, p') /\ cow_list c = xs /\
    after PB mo fin cap mem p (len xs * 8) rest a p'.
Proof.
  intros pl S PB mo fin cap mem p xs rest a o Hcap Hx Hnat Hs.
  eapply (slice_after pl S PB mo fin cap mem N (elem_u64 pl) fl_u64 w64); try eassumption.
  - intros rep n HC. now apply r_slice_u64.
  - reflexivity.
  - intros x. apply w64_len.
  - eapply Forall_impl; [|exact Hx]. intros x H. now apply dec_u64.
Qed.

Theorem C10_namespace_partial : forall pl S (PB : parsebuf S) mo fin cap mem p xs rest a,
  let o := order_of pl (c_endian (p_cfg p)) in
  cap <= isize_max pl ->
  Forall (fun x => ns_dev x < 2 ^ 64 /\ ns_inode x < 2 ^ 64) xs ->
  (o = pl_host pl -> (xs = [] \/ lends_aligned pl mo a) /\ w_list (w_ns o) xs ++ rest <> [] /\
     len xs * 16 <= usize_max pl) ->
  source PB mo fin cap mem p (w_list (w_ns o) xs ++ rest) a ->
  exists c p', parse_slice pl PB (elem_ns pl) (len xs) p = (Ok c, p') /\ cow_list c = xs /\
    after PB mo fin cap mem p (len xs * 16) rest a p'.
Proof.
  intros pl S PB mo fin cap mem p xs rest a o Hcap Hx Hnat Hs.
  eapply (slice_after pl S PB mo fin cap mem _ (elem_ns pl) fl_ns w_ns); try eassumption.
  - intros rep n HC. now apply r_slice_ns.
  - reflexivity.
  - intros x. apply w_ns_len.
  - eapply Forall_impl; [|exact Hx]. intros x [H1 H2]. now apply dec_ns.
Qed.

Theorem C10_branch_partial : forall pl S (PB : parsebuf S) mo fin cap mem p xs rest a,
  let o := order_of pl (c_endian (p_cfg p)) in
  cap <= isize_max pl -> Forall branch_ok xs ->
  (o = pl_host pl -> (xs = [] \/ lends_aligned pl mo a) /\ w_list (w_branch o) xs ++ rest <> [] /\
     len xs * 24 <= usize_max pl) ->
  source PB mo fin cap mem p (w_list (w_branch o) xs ++ rest) a ->
  exists c p', parse_slice pl PB (elem_branch pl) (len xs) p = (Ok c, p') /\ cow_list c = xs /\
    after PB mo fin cap mem p (len xs * 24) rest a p'.
Proof.
  intros pl S PB mo fin cap mem p xs rest a o Hcap Hx Hnat Hs.
  eapply (slice_after pl S PB mo fin cap mem _ (elem_branch pl) fl_branch w_branch); try eassumption.
  - intros rep n HC. now apply r_slice_branch.
  - reflexivity.
  - intros x. apply w_branch_len.
  - eapply Forall_impl; [|exact Hx]. intros x H. now apply dec_branch.
Qed.

(** Fewer bytes than asked for: the error of the source, or of the length check. *)
Theorem C10_short : forall pl S (PB : parsebuf S) mo fin cap mem p n l a,
  cap <= isize_max pl -> source PB mo fin cap mem p l a -> len l < n * 8 ->
  exists e, fst (parse_slice pl PB (elem_u64 pl) n p) = Err e /\
    (e = fin \/ (usize_max pl < n * 8 /\ e = custom_error KInvalidRecord MsgSliceTooLong)).
Proof.
  intros pl S PB mo fin cap mem p n l a Hcap (rep & HC & Hr & Hw) Hl.
  pose proof (r_slice_u64 pl PB mo fin cap mem rep a HC Hcap n) as HR.
  set (nat := order_eqb (order_of pl (c_endian (p_cfg p))) (pl_host pl)).
  assert (E : exists e l' k, f_array pl fl_u64 n (mkEnv (p_cfg p) fin) l 0 = FErr e l' k [] /\
    (e = fin \/ (usize_max pl < n * 8 /\ e = custom_error KInvalidRecord MsgSliceTooLong))).
  { unfold f_array. cbn [fe_cfg fe_fin fl_size fl_u64]. fold nat.
    destruct (N.ltb_spec (usize_max pl) (n * 8)) as [H1|H1]; destruct nat; cbn [andb];
      try (do 3 eexists; split; [reflexivity|right; split; [assumption|reflexivity]]);
      try (destruct (len l =? 0); [do 3 eexists; split; [reflexivity|left; reflexivity]|]);
      rewrite (proj2 (N.ltb_lt _ _)) by exact Hl; do 3 eexists; (split; [reflexivity|left; reflexivity]). }
  destruct E as (e & l' & k & E & He).
  destruct (run_err mo fin cap rep _ _ _ _ _ _ _ _ _ _ _ _ HR Hr Hw E ltac:(constructor))
    as (p' & Ep & _).
  exists e. rewrite Ep. split; [reflexivity|exact He].
Qed.

(** Bytes of the host's order, in one piece, at an address not aligned for [u64]:
    always, the elements asked for are passed over and the ones behind them are
    returned. *)
Theorem C10_skipped_refuted : forall pl S (PB : parsebuf S) fin cap mem p xs ys rest a,
  let o := order_of pl (c_endian (p_cfg p)) in
  o = pl_host pl -> a mod word_align pl <> 0 ->
  cap <= isize_max pl -> xs <> [] -> len ys = len xs -> len xs * 8 <= usize_max pl ->
  Forall (fun x => x < 2 ^ 64) ys ->
  source PB Whole fin cap mem p (w_list (w64 o) xs ++ w_list (w64 o) ys ++ rest) a ->
  exists p', parse_slice pl PB (elem_u64 pl) (len xs) p = (Ok (Owned ys), p') /\
    after PB Whole fin cap mem p (2 * (len xs * 8)) rest a p'.
Proof.
  intros pl S PB fin cap mem p xs ys rest a o Ho Ha Hcap Hne Hlen Hmax Hy (rep & HC & Hr & Hw).
  assert (Lx : len (w_list (w64 o) xs) = len xs * 8) by (apply w_list_len; intros x; apply w64_len).
  assert (Ly : len (w_list (w64 o) ys) = len xs * 8)
    by (rewrite <- Hlen; apply w_list_len; intros x; apply w64_len).
  set (n := len xs) in *.
  assert (Hn : 0 < n) by now apply len_pos.
  pose proof (bytes_direct_spec PB Whole fin cap mem rep a HC (n * 8) p _ 0
    ltac:(rewrite N.add_0_r; exact Hr) Hw) as H.
  set (l := w_list (w64 o) xs ++ w_list (w64 o) ys ++ rest) in *.
  assert (Ll : len l = n * 8 + (n * 8 + len rest)) by (unfold l; rewrite !len_app, Lx, Ly; reflexivity).
  destruct l as [|b l'] eqn:El; [cbn in Ll; lia|]. rewrite <- El in *. clear b l' El.
  destruct H as (r & p1 & E1 & H). destruct r as [[x d]|]; [|destruct H as [H _]; specialize (H eq_refl); lia].
  destruct H as (_ & Hd & _ & Hx & Hs). rewrite N.add_0_r in Hx.
  assert (Hdl : len d = n * 8) by (rewrite Hd, len_take; lia).
  assert (Hd2 : drop (n * 8) l = w_list (w64 o) ys ++ rest) by (apply drop_app_exact; now symmetry).
  assert (Hal : (x mod word_align pl =? 0) || (len d =? 0) = false).
  { apply orb_false_iff. split; apply N.eqb_neq; [|lia]. intros C. apply Ha. rewrite <- C.
    symmetry. now apply mod_align. }
  assert (Edir : parse_slice_direct pl PB (elem_u64 pl) n p = (Ok None, p1)).
  { unfold parse_slice_direct, bind at 1, get_cfg. rewrite is_native_order. fold o. rewrite <- Ho.
    replace (order_eqb o o) with true by now destruct o. cbn [negb].
    unfold checked_mul. cbn [el_size elem_u64].
    replace (n * 8 <=? usize_max pl) with true by (symmetry; now apply N.leb_le).
    unfold bind. rewrite E1, Hal. reflexivity. }
  pose proof (repeated_spec pl PB Whole fin cap mem rep a HC Hcap (elem_u64 pl) fl_u64 eq_refl eq_refl
    ltac:(discriminate) (Ref_u64 pl PB Whole fin cap mem rep a HC) n p1 _ _
    (st_rep _ _ _ _ _ _ _ _ _ Hs) (wf_drop _ _ Hw)) as G.
  destruct (parse_repeated pl PB (elem_u64 pl) n p1) as [res p2] eqn:E2.
  rewrite Hd2, len_app, Ly, N.add_0_l in G. cbn [fl_size fl_u64] in G.
  rewrite (proj2 (N.ltb_ge _ _)) in G by lia. destruct G as [-> Hs2].
  rewrite take_app_exact, drop_app_exact in * by (now symmetry).
  rewrite (st_cfg _ _ _ _ _ _ _ _ _ Hs) in E2. fold o in E2.
  exists p2. split.
  - unfold parse_slice, bind at 1. rewrite Edir. unfold bind. rewrite E2. cbn [ret].
    rewrite decode_list; [reflexivity|reflexivity|intros y; apply w64_len|].
    eapply Forall_impl; [|exact Hy]. intros y H. now apply dec_u64.
  - eapply (step_after S PB Whole fin cap cap mem rep a p l p2); [exact HC|exact Hw|].
    replace (2 * (n * 8)) with (n * 8 + n * 8) by lia. eapply step_trans; [exact Hs|].
    rewrite Hd2, N.add_0_l. exact Hs2.
Qed.

(** From a slice at address 4100 the first element is lost. *)
Theorem C10_misaligned_refuted :
  exists pl S (PB : parsebuf S) mo mem p,
    let d := w_list (w64 LE) [1; 2] in
    source PB mo eof_error (isize_max pl) mem p d 4100 /\
    order_of pl (c_endian (p_cfg p)) = LE /\
    fst (parse_slice pl PB (elem_u64 pl) 1 p) = Ok (Owned [2]) /\
    fst (parse_slice pl PB (elem_u64 pl) 2 p) = Err eof_error.
Proof.
  exists pl64, slice, slice_buf, Whole.
  set (d := w_list (w64 LE) [1; 2]).
  exists (memory_of 4100 d), (on_slice 4100 d ex_cfg).
  split; [|repeat split; vm_compute; reflexivity].
  apply slice_source; [| | |apply memory_of_at]; try (vm_compute; congruence).
  repeat constructor.
Qed.

(** No elements at the end of the data: an error in the host's order, fine otherwise. *)
Theorem C10_empty_refuted :
  exists pl S (PB : parsebuf S) mo mem p p',
    source PB mo eof_error (isize_max pl) mem p [] 0 /\
    source PB mo eof_error (isize_max pl) mem p' [] 0 /\
    fst (parse_slice pl PB (elem_u64 pl) 0 p) = Err eof_error /\
    fst (parse_slice pl PB (elem_u64 pl) 0 p') = Ok (Owned []).
Proof.
  exists pl64, slice, slice_buf, Whole, (fun _ => 0), (on_slice 0 [] ex_cfg),
    (on_slice 0 [] (mkConfig (c_flags ex_cfg) 0 0 Big)).
  split; [|split; [|split; vm_compute; reflexivity]];
    (apply slice_source; [constructor|reflexivity|vm_compute; congruence|apply mem_at_nil]).
Qed.

Example C10_example :
  let d := w_list (w64 LE) [1; 2] ++ [7] in
  source slice_buf Whole eof_error (isize_max pl64) (memory_of 4096 d) (on_slice 4096 d ex_cfg) d 4096 /\
  lends_aligned pl64 Whole 4096 /\
  fst (parse_slice pl64 slice_buf (elem_u64 pl64) 2 (on_slice 4096 d ex_cfg)) = Ok (Borrowed 4096 [1; 2]) /\
  fst (parse_slice pl64 bufreader_buf (elem_u64 pl64) 2 (reader_of [take 5 d; drop 5 d] ex_cfg))
    = Ok (Owned [1; 2]).
Proof.
  split; [|repeat split; vm_compute; reflexivity].
  apply slice_source; [| | |apply memory_of_at]; try (vm_compute; congruence).
  repeat constructor.
Qed.

(** The hypotheses of [C10_skipped_refuted], and the same bytes on a platform where
    [u64] is aligned to 4. *)
Example C10_example_skipped :
  let d := w_list (w64 LE) [1; 2] ++ w_list (w64 LE) [3; 4] ++ [7] in
  let p := on_slice 4100 d ex_cfg in
  source slice_buf Whole eof_error (isize_max pl64) (memory_of 4100 d) p d 4100 /\
  4100 mod word_align pl64 <> 0 /\ 4100 mod word_align pl32 = 0 /\
  fst (parse_slice pl64 slice_buf (elem_u64 pl64) 2 p) = Ok (Owned [3; 4]) /\
  fst (parse_slice pl32 slice_buf (elem_u64 pl32) 2 p) = Ok (Borrowed 4100 [1; 2]).
Proof.
  split; [|split; [discriminate|repeat split; vm_compute; reflexivity]].
  apply slice_source; [| | |apply memory_of_at]; try (vm_compute; congruence).
  repeat constructor.
Qed.

(** ** C34: splitting and truncating a Cow.

    Full statement: splitting at [n] gives the first [n] elements and the others, for
    borrowed and owned data.  Owned data comes back swapped when either part is empty
    ([C34_split_refuted]). *)
Theorem C34_split_partial : forall A esz (c : cow A) n,
  n <= len (cow_list c) ->
  (match c with Owned l => 0 < n /\ n < len l | Borrowed _ _ => True end) ->
  exists x y, cow_split_at esz c n = Ok (x, y) /\
    cow_list x = firstn (N.to_nat n) (cow_list c) /\
    cow_list y = skipn (N.to_nat n) (cow_list c).
Proof.
  intros A esz [b l|l] n Hn Hc; cbn [cow_list cow_split_at] in *; rewrite <- take_firstn, <- drop_skipn.
  - rewrite (proj2 (N.ltb_ge _ _)) by exact Hn. do 2 eexists. repeat split.
  - rewrite (proj2 (N.eqb_neq n 0)), (proj2 (N.eqb_neq n _)), (proj2 (N.ltb_ge _ _)) by lia.
    do 2 eexists. repeat split.
Qed.

(** Borrowed parts are borrows of the right addresses. *)
Theorem C34_split_borrowed : forall A esz a (l r : list A),
  cow_split_at esz (Borrowed a (l ++ r)) (len l) = Ok (Borrowed a l, Borrowed (a + esz * len l) r).
Proof.
  intros A esz a l r. cbn [cow_split_at]. rewrite len_app, (proj2 (N.ltb_ge _ _)) by lia.
  now rewrite take_app_exact, drop_app_exact.
Qed.

Theorem C34_split_refuted : forall A esz (l : list A), l <> [] ->
  cow_split_at esz (Owned l) 0 = Ok (Owned l, Borrowed 0 []) /\
  cow_split_at esz (Owned l) (len l) = Ok (Borrowed 0 [], Owned l).
Proof.
  intros A esz l Hl. apply len_pos in Hl. cbn [cow_split_at]. split; [reflexivity|].
  rewrite (proj2 (N.eqb_neq _ 0)) by lia. now rewrite N.eqb_refl.
Qed.

Theorem C34_truncate : forall A (c : cow A) n,
  exists c', cow_truncate c n = Ok c' /\ cow_list c' = firstn (N.to_nat n) (cow_list c) /\
    match c, c' with
    | Borrowed a _, Borrowed a' _ => a' = a
    | Owned _, Owned _ => True
    | _, _ => False
    end.
Proof.
  intros A [a l|l] n; cbn [cow_truncate cow_list].
  - destruct (N.ltb_spec (len l) n) as [H|H]; eexists; (split; [reflexivity|]); (split; [|reflexivity]);
      cbn [cow_list]; rewrite <- take_firstn; [|reflexivity]. now rewrite take_all by lia.
  - eexists. split; [reflexivity|]. cbn [cow_list]. now rewrite take_firstn.
Qed.

Example C34_example :
  cow_split_at 1 (Owned [1; 2; 3]) 1 = Ok (Owned [1], Owned [2; 3]) /\
  cow_split_at 1 (Owned [1; 2; 3]) 0 = Ok (Owned [1; 2; 3], Borrowed 0 []) /\
  cow_truncate (Borrowed 9 [1; 2; 3]) 2 = Ok (Borrowed 9 [1; 2]).
Proof. repeat split. Qed.

Print Assumptions C05_u8.
Print Assumptions C05_u16.
Print Assumptions C05_u32.
Print Assumptions C05_u64.
Print Assumptions C05_every_string_encodes.
Print Assumptions C05_short.
Print Assumptions C06_is_native.
Print Assumptions C06_elements.
Print Assumptions C07_parse_bytes_partial.
Print Assumptions C07_short.
Print Assumptions C07_parse_bytes_refuted.
Print Assumptions C08_parse_rest_partial.
Print Assumptions C08_trim_partial.
Print Assumptions C08_error.
Print Assumptions C08_parse_rest_refuted.
Print Assumptions C10_u64_partial.
Print Assumptions C10_namespace_partial.
Print Assumptions C10_branch_partial.
Print Assumptions C10_short.
Print Assumptions C10_skipped_refuted.
Print Assumptions C10_misaligned_refuted.
Print Assumptions C10_empty_refuted.
Print Assumptions C34_split_partial.
Print Assumptions C34_split_borrowed.
Print Assumptions C34_split_refuted.
Print Assumptions C34_truncate.
