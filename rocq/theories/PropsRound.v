(** Theorems: what was encoded as in perf_event.h is what the parsers return
    (C02, C11, C20, C21, C22, C23, C27, C28, C35). *)
From Coq Require Import NArith List Bool Lia.
From Verif Require Import Base BaseFacts Types Platform Config Buf Parser Contract Flat Refine.
From Verif Require Import Instances Prims Slices Records Sample Record Attr Views RefRecords.
From Verif Require Import RefFrame RefTop Safe Wire Codec ConfFacts Roundtrip RtSample RtRecord.
From Verif Require Import Spec NoHint FrameFacts RoundFacts ExData PropsFrame PropsSafe.
Import ListNotations.
Open Scope N_scope.

Definition expected_record (b : wbody) : record list :=
  match b with WOther t d => RUnknown t d | _ => RBody (expected b) end.

Lemma enum_reads : forall pl S (PB : parsebuf S) mo fin cap mem w p m si b rest a,
  let o := order_of pl (c_endian (p_cfg p)) in
  pl_ok pl -> configured (p_cfg p) w -> m < 2 ^ 16 -> sample_id_ok w si -> wbody_ok w m b ->
  readable (pl_host pl) o w (poke_of mo) b -> len (w_record o w m si b) < 2 ^ 16 ->
  lends_fine pl mo (p_cfg p) a b ->
  source PB mo fin cap mem p (w_record o w m si b ++ rest) a ->
  exists r p', parse_record_enum pl PB p = (Ok r, p') /\ view_record r = expected_record b /\
    after PB mo fin cap mem p (len (w_record o w m si b)) rest a p'.
Proof.
  intros pl S PB mo fin cap mem w p m si b rest a o Hpl Hcf Hm Hsi Hok Hr Hlen Hf Hs.
  destruct (record_reads pl PB mo fin cap mem Hpl _ record_visitor w p m si b rest a Hcf Hm Hsi Hok Hr
    Hlen Hf Hs) as (bc & p' & E & Hv & _ & Ha).
  unfold parse_record_enum. rewrite E.
  exists (match bc with BUnknown d => RUnknown (w_type b) d | _ => RBody bc end), p'.
  split; [destruct bc; reflexivity|]. split; [|exact Ha].
  destruct b, bc; try discriminate; unfold expected_record; cbn [view_record];
    try rewrite Hv; cbn [view_body expected] in Hv; try (injection Hv as <-); reflexivity.
Qed.

(** ** C21: record bodies.

    Full statement: a record of any of these types decodes to the values it was
    encoded from.  [readable] leaves out what the crate cannot read back: MMAP with a
    sample_id, NAMESPACES with no entries in the byte order of the host (both refuted below), SWITCH (C26), and
    samples and TEXT_POKE cases (C20, C35). *)
Theorem C21_record_partial : forall pl S (PB : parsebuf S) mo fin cap mem w p m si b rest a,
  let o := order_of pl (c_endian (p_cfg p)) in
  pl_ok pl -> configured (p_cfg p) w -> m < 2 ^ 16 -> sample_id_ok w si -> wbody_ok w m b ->
  readable (pl_host pl) o w (poke_of mo) b -> len (w_record o w m si b) < 2 ^ 16 ->
  lends_fine pl mo (p_cfg p) a b ->
  source PB mo fin cap mem p (w_record o w m si b ++ rest) a ->
  exists r p', parse_record_enum pl PB p = (Ok r, p') /\ view_record r = expected_record b /\
    after PB mo fin cap mem p (len (w_record o w m si b)) rest a p'.
Proof. exact enum_reads. Qed.

(** Types without exceptions. *)
Definition plain (b : wbody) : Prop :=
  match b with
  | WLost _ | WComm _ _ | WExit _ | WThrottle _ | WUnthrottle _ | WFork _ | WMmap2 _ _ | WAux _
  | WItraceStart _ | WLostSamples _ | WSwitchCpuWide _ | WKsymbol _ _ | WBpfEvent _
  | WCgroup _ _ | WAuxOutputHwId _ => True
  | _ => False
  end.

Theorem C21_plain : forall pl S (PB : parsebuf S) mo fin cap mem w p m si b rest a,
  let o := order_of pl (c_endian (p_cfg p)) in
  pl_ok pl -> plain b ->
  configured (p_cfg p) w -> m < 2 ^ 16 -> sample_id_ok w si -> wbody_ok w m b ->
  len (w_record o w m si b) < 2 ^ 16 ->
  source PB mo fin cap mem p (w_record o w m si b ++ rest) a ->
  exists r p', parse_record_enum pl PB p = (Ok r, p') /\ view_record r = RBody (expected b) /\
    after PB mo fin cap mem p (len (w_record o w m si b)) rest a p'.
Proof.
  intros pl S PB mo fin cap mem w p m si b rest a o Hpl Hb Hcf Hm Hsi Hok Hlen Hs.
  destruct (enum_reads pl S PB mo fin cap mem w p m si b rest a) as (r & p' & H1 & H2 & H3);
    try assumption.
  - destruct b; try contradiction; exact I.
  - right; left. destruct b; try contradiction; exact I.
  - exists r, p'. split; [exact H1|]. split; [|exact H3]. rewrite H2. destruct b; try contradiction; reflexivity.
Qed.

(** Parsed on its own from a source that ends with Eof, an MMAP is fine. *)
Theorem C21_mmap : forall pl S (PB : parsebuf S) mo fin cap mem w p m r k a,
  let o := order_of pl (c_endian (p_cfg p)) in
  wbody_ok w m (WMmap r k) -> is_eof fin = true ->
  source PB mo fin cap mem p (w_body o w (WMmap r k)) a ->
  exists c p', parse_mmap pl PB p = (Ok c, p') /\ view_mmap c = r /\
    after PB mo fin cap mem p (len (w_body o w (WMmap r k))) [] a p'.
Proof.
  intros pl S PB mo fin cap mem w p m r k a o Hok Hf Hs.
  rewrite <- (app_nil_r (w_body o w (WMmap r k))) in Hs.
  destruct (reads_quiet PB mo fin cap mem _ _ (vrel view_mmap (ok_mmap mo mem)) (parse_mmap pl PB)
    (f_mmap pl) 0 false p (w_body o w (WMmap r k)) r [] a) as (c & p' & E & [Hc _] & Ha).
  - intros rep HC. eapply Ref_mmap; eassumption.
  - unfold f_mmap. repeat quiet_step.
  - destruct r as [x y z n q f]. cbn [wbody_ok mm_pid mm_tid mm_addr mm_len mm_pgoff mm_filename] in Hok.
    destruct Hok as (H1 & H2 & H3 & H4 & H5 & H6). unfold f_mmap. cbn [w_body].
    eapply Rt_bind; [apply Rt_u32; assumption|]. eapply Rt_bind; [apply Rt_u32; assumption|].
    eapply Rt_bind; [apply Rt_u64; assumption|]. eapply Rt_bind; [apply Rt_u64; assumption|].
    eapply Rt_bind; [apply Rt_u64; assumption|].
    eapply Rt_last; [apply Rt_string; [exact Hf|eassumption]|]. apply Rt_ret.
  - exact Hs.
  - exists c, p'. auto.
Qed.

(** But as a record with sample_id_all its sample_id ends up in the file name. *)
Definition ex_mmap : wbody := WMmap (mkMmap 1 2 4096 8192 0 [47; 98]) 6.

Theorem C21_mmap_refuted : exists pl S (PB : parsebuf S) mo mem w p m si b,
  let o := order_of pl (c_endian (p_cfg p)) in
  pl_ok pl /\ configured (p_cfg p) w /\ m < 2 ^ 16 /\ sample_id_ok w si /\ wbody_ok w m b /\
  len (w_record o w m si b) < 2 ^ 16 /\ lends_fine pl mo (p_cfg p) 4096 b /\
  source PB mo eof_error (isize_max pl) mem p (w_record o w m si b) 4096 /\
  exists r c, fst (parse_record_enum pl PB p) = Ok r /\ view_record r = RBody (BMmap c) /\
    b = ex_mmap /\ mm_filename c = [47; 98] ++ zeros 6 ++ take 10 (w_sample_id LE w si).
Proof.
  exists pl64, slice, slice_buf, Whole.
  set (d := w_record LE ex_set 1 ex_id ex_mmap).
  exists (memory_of 4096 d), ex_set, (on_slice 4096 d ex_cfg), 1, ex_id, ex_mmap.
  split; [now right|]. split; [repeat split|]. split; [reflexivity|]. split; [repeat split|].
  split; [repeat split; try discriminate; repeat constructor|]. split; [reflexivity|].
  split; [left; reflexivity|]. split.
  - apply slice_source; [| | |apply memory_of_at]; try (vm_compute; congruence). repeat constructor.
  - eexists _, _. split; [vm_compute; reflexivity|]. split; [reflexivity|].
    split; [reflexivity|]. vm_compute. reflexivity.
Qed.

(** A NAMESPACES record with no entries is rejected. *)
Theorem C21_namespaces_refuted : exists pl S (PB : parsebuf S) mo mem w p m si b,
  let o := order_of pl (c_endian (p_cfg p)) in
  pl_ok pl /\ configured (p_cfg p) w /\ m < 2 ^ 16 /\ sample_id_ok w si /\ wbody_ok w m b /\
  len (w_record o w m si b) < 2 ^ 16 /\ lends_fine pl mo (p_cfg p) 4096 b /\
  source PB mo eof_error (isize_max pl) mem p (w_record o w m si b) 4096 /\
  b = WNamespaces (mkNamespaces 1 2 []) /\
  fst (parse_record_enum pl PB p) = Err eof_error.
Proof.
  exists pl64, slice, slice_buf, Whole.
  set (b := WNamespaces (mkNamespaces 1 2 [])).
  set (d := w_record LE ex_set 1 ex_id b).
  exists (memory_of 4096 d), ex_set, (on_slice 4096 d ex_cfg), 1, ex_id, b.
  split; [now right|]. split; [repeat split|]. split; [reflexivity|]. split; [repeat split|].
  split; [repeat split; try discriminate; repeat constructor|]. split; [reflexivity|].
  split; [left; reflexivity|]. split.
  - apply slice_source; [| | |apply memory_of_at]; try (vm_compute; congruence). repeat constructor.
  - split; [reflexivity|]. vm_compute. reflexivity.
Qed.

Example C21_example :
  let b := WComm (mkComm 7 8 [115; 104]) 6 in
  let d := w_record LE ex_set 0 ex_id b ++ [1; 2] in
  plain b /\ configured ex_cfg ex_set /\ sample_id_ok ex_set ex_id /\ wbody_ok ex_set 0 b /\
  source slice_buf Whole eof_error (isize_max pl64) (memory_of 4096 d) (on_slice 4096 d ex_cfg) d 4096 /\
  fst (parse_record_enum pl64 slice_buf (on_slice 4096 d ex_cfg)) =
    Ok (RBody (BComm (mkComm 7 8 (Borrowed (4096 + 16) [115; 104])))).
Proof.
  split; [exact I|]. split; [repeat split|]. split; [repeat split|].
  split; [repeat split; try discriminate; repeat constructor|]. split; [|vm_compute; reflexivity].
  apply slice_source; [| | |apply memory_of_at]; try (vm_compute; congruence). repeat constructor.
Qed.

(** ** C02: streams. *)

(** A record to be: header misc, trailing sample_id, body. *)
Record item : Type := mkItem { i_misc : N; i_id : sample_id; i_body : wbody }.

Definition encode (o : order) (w : settings) (i : item) : list N :=
  w_record o w (i_misc i) (i_id i) (i_body i).

Definition item_ok (host o : order) (w : settings) (mo : mode) (i : item) : Prop :=
  i_misc i < 2 ^ 16 /\ sample_id_ok w (i_id i) /\ wbody_ok w (i_misc i) (i_body i) /\
  readable host o w (poke_of mo) (i_body i) /\ len (encode o w i) < 2 ^ 16.

(** Arrays are read as they are all through the stream. *)
Fixpoint stream_lends (pl : platform) (mo : mode) (c : config) (o : order) (w : settings) (a : N)
  (is : list item) : Prop :=
  match is with
  | [] => True
  | i :: t => lends_fine pl mo c a (i_body i) /\
              stream_lends pl mo c o w (a + len (encode o w i)) t
  end.

(** Full statement: any list of records decodes to those records, then comes the
    source's end.  [item_ok] leaves out the same cases as C21. *)
Theorem C02_stream_partial : forall pl S (PB : parsebuf S) mo fin cap mem w is p a,
  let o := order_of pl (c_endian (p_cfg p)) in
  pl_ok pl -> configured (p_cfg p) w -> Forall (item_ok (pl_host pl) o w mo) is ->
  stream_lends pl mo (p_cfg p) o w a is ->
  source PB mo fin cap mem p (concat (map (encode o w) is)) a ->
  exists rs, results pl PB (length is + 1) p = map Ok rs ++ [Err fin] /\
    map view_record rs = map (fun i => expected_record (i_body i)) is.
Proof.
  intros pl S PB mo fin cap mem w is. induction is as [|i is IH]; intros p a o Hpl Hcf Hok Hl Hs.
  - exists []. split; [|reflexivity]. cbn [map concat] in Hs. cbn [length Nat.add results map app].
    pose proof (C13_truncated_header pl S PB mo fin cap mem _ record_visitor p [] a eq_refl Hs) as E.
    change (parse_record pl PB record_visitor p) with (parse_record_enum pl PB p) in E.
    destruct (parse_record_enum pl PB p) as [r p']. cbn [fst] in E. now subst r.
  - inversion Hok as [|? ? (H1 & H2 & H3 & H4 & H5) Hok']; subst. destruct Hl as [Hl1 Hl2].
    cbn [map concat] in Hs.
    destruct (enum_reads pl S PB mo fin cap mem w p (i_misc i) (i_id i) (i_body i)
      (concat (map (encode o w) is)) a) as (r & p' & E & Hv & Ha); try assumption.
    destruct Ha as (Hs' & Hc & _).
    destruct (IH p' (a + len (encode o w i))) as (rs & Er & Ev); try (rewrite Hc); try assumption.
    exists (r :: rs). split.
    + cbn [length Nat.add results]. rewrite E, Er. reflexivity.
    + cbn [map]. now rewrite Hv, Ev.
Qed.

(** Records of the kernel are multiples of 8 long; then aligned memory will do. *)
Theorem C02_aligned : forall pl mo c o w is a,
  lends_aligned pl mo a -> Forall (fun i => len (encode o w i) mod 8 = 0) is ->
  stream_lends pl mo c o w a is.
Proof.
  intros pl mo c o w is. induction is as [|i is IH]; intros a Ha Hm; [exact I|].
  inversion Hm as [|? ? H1 H2]; subst. split; [now left|]. apply IH; [|exact H2].
  destruct mo; try exact I; try contradiction; cbn [lends_aligned] in *;
    now apply shift_align.
Qed.

(** A well-formed SWITCH record in the stream ends it. *)
Theorem C02_refuted : exists pl S (PB : parsebuf S) mo mem w p is,
  let o := order_of pl (c_endian (p_cfg p)) in
  pl_ok pl /\ configured (p_cfg p) w /\ 
  Forall (fun i => i_misc i < 2 ^ 16 /\ sample_id_ok w (i_id i) /\
    wbody_ok w (i_misc i) (i_body i) /\ len (encode o w i) < 2 ^ 16) is /\
  stream_lends pl mo (p_cfg p) o w 4096 is /\
  source PB mo eof_error (isize_max pl) mem p (concat (map (encode o w) is)) 4096 /\
  map i_body is = [WSwitch; WLost (mkLost 7 9)] /\
  fst (parse_record_enum pl PB p) = Err eof_error.
Proof.
  exists pl64, slice, slice_buf, Whole.
  set (is := [mkItem 1 ex_id WSwitch; mkItem 1 ex_id (WLost (mkLost 7 9))]).
  set (d := concat (map (encode LE ex_set) is)).
  exists (memory_of 4096 d), ex_set, (on_slice 4096 d ex_cfg), is.
  split; [now right|]. split; [repeat split|]. split; [repeat constructor|].
  split; [repeat split; left; reflexivity|]. split; [|split; vm_compute; reflexivity].
  apply slice_source; [| | |apply memory_of_at]; try (vm_compute; congruence). repeat constructor.
Qed.

Definition ex_items : list item :=
  [ mkItem 0 ex_id (WLost (mkLost 7 9));
    mkItem 0 ex_id (WNamespaces (mkNamespaces 1 1 [mkNs 3 4; mkNs 5 6]));
    mkItem 0 ex_id (WOther 77 [1; 2; 3; 4; 5; 6; 7; 8]) ].

(** Three records from a reader that hands out 7 bytes at a time. *)
Fixpoint cut (fuel : nat) (n : N) (l : list N) : list (list N) :=
  match fuel, l with
  | O, _ | _, [] => []
  | S f, _ => take n l :: cut f n (drop n l)
  end.

Example C02_example :
  let d := concat (map (encode LE ex_set) ex_items) in
  Forall (item_ok LE LE ex_set NoExt) ex_items /\
  stream_lends pl64 NoExt ex_cfg LE ex_set 0 ex_items /\
  results pl64 bufreader_buf 4 (reader_of (cut 200 7 d) ex_cfg) =
    [ Ok (RBody (BLost (mkLost 7 9)));
      Ok (RBody (BNamespaces (mkNamespaces 1 1 (Owned [mkNs 3 4; mkNs 5 6]))));
      Ok (RUnknown 77 (Owned [1; 2; 3; 4; 5; 6; 7; 8])); Err eof_error ].
Proof.
  split; [|split].
  - repeat first [right; reflexivity | constructor]; try discriminate; try (vm_compute; reflexivity).
  - repeat split; left; exact I.
  - vm_compute. reflexivity.
Qed.

Print Assumptions C21_record_partial.
Print Assumptions C21_plain.
Print Assumptions C21_mmap.
Print Assumptions C21_mmap_refuted.
Print Assumptions C21_namespaces_refuted.
Print Assumptions C02_stream_partial.
Print Assumptions C02_aligned.
Print Assumptions C02_refuted.
