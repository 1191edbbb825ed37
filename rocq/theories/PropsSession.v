(** C61: whole sessions, from the attr to what the visitor is given. *)
From Coq Require Import NArith List Bool Lia.
From Verif Require Import Base BaseFacts Types Platform Config Buf Parser Contract Flat.
From Verif Require Import Records Sample Record Attr Views Wire WireAttr WireBits Roundtrip RtRecord.
From Verif Require Import ConfFacts Spec RoundFacts ExData PropsFrame PropsSafe PropsRound PropsAttr PropsBits.
Import ListNotations.
Open Scope N_scope.

(** The results of [n] calls of [parse_record] with the visitor [V]. *)
Fixpoint visits (pl : platform) {S O : Type} (PB : parsebuf S) (V : visitor O) (n : nat) (p : parser S)
  : list (out O) :=
  match n with
  | O => []
  | Datatypes.S k => let '(r, p') := parse_record pl PB V p in r :: visits pl PB V k p'
  end.

(** What the visitor is told about a record: type, misc and sample_id (samples have
    no sample_id of their own). *)
Definition told (i : item) : metadata :=
  mkMeta (w_type (i_body i)) (i_misc i)
    (match i_body i with WSample _ => sample_id_default | _ => i_id i end).

Definition asked {O : Type} (V : visitor O) (ib : item * body cow) : out O :=
  answer V (snd ib) (told (fst ib)).

(** Full statement: any list of records reaches the visitor.  [item_ok] leaves out the
    same cases as C21. *)
Theorem C61_visitor_partial : forall pl S (PB : parsebuf S) mo fin cap mem w O (V : visitor O) is p a,
  let o := order_of pl (c_endian (p_cfg p)) in
  pl_ok pl -> configured (p_cfg p) w -> Forall (item_ok (pl_host pl) o w mo) is ->
  stream_lends pl mo (p_cfg p) o w a is ->
  source PB mo fin cap mem p (concat (map (encode o w) is)) a ->
  exists bs, map view_body bs = map (fun i => expected (i_body i)) is /\
    visits pl PB V (length is + 1) p = map (asked V) (combine is bs) ++ [Err fin].
Proof.
  intros pl S PB mo fin cap mem w O V is.
  induction is as [|i is IH]; intros p a o Hpl Hcf Hok Hl Hs.
  - exists []. split; [reflexivity|]. cbn [map concat] in Hs. cbn [length Nat.add visits combine map app].
    pose proof (C13_truncated_header pl S PB mo fin cap mem _ V p [] a eq_refl Hs) as E.
    destruct (parse_record pl PB V p) as [r p']. cbn [fst] in E. now subst r.
  - inversion Hok as [|? ? (H1 & H2 & H3 & H4 & H5) Hok']; subst. destruct Hl as [Hl1 Hl2].
    cbn [map concat] in Hs.
    destruct (record_reads pl PB mo fin cap mem Hpl O V w p (i_misc i) (i_id i) (i_body i)
      (concat (map (encode o w) is)) a) as (b & p' & E & Hv & _ & Ha); try assumption.
    destruct Ha as (Hs' & Hc & _).
    destruct (IH p' (a + len (encode o w i))) as (bs & Ev & Er); try (rewrite Hc); try assumption.
    exists (b :: bs). split.
    + cbn [map]. now rewrite Hv, Ev.
    + cbn [length Nat.add visits combine map app]. rewrite E, Er, deliver_answer. reflexivity.
Qed.

(** The kernel of a machine of the byte order of the host made an attr and records.
    Reading the attr, making a configuration of it and reading the records with that
    gives those records, from whatever sources.

    What is missing: recordings of the other byte order ([C61_cross_refuted]), attrs
    that are not followed by four bytes (C30), sample_type bits above 2^40 (C14), and
    the records that [item_ok] leaves out (C21). *)
Theorem C61_session_partial :
  forall pl S (PB : parsebuf S) mo fin cap mem p a k r2 r3 ext four rest pos e,
  let o := order_of pl (c_endian (p_cfg p)) in
  let w := settings_of a k in
  o = pl_host pl -> order_of pl e = o ->
  pl_ok pl -> attr_ok a r2 r3 ext -> zero_bytes ext -> len four = 4 -> zero_bytes four ->
  at_bits a = attr_word o k -> kf_precise_ip k < 4 ->
  at_sample_type a < 2 ^ 40 -> at_read_format a < 2 ^ 5 ->
  source PB mo fin cap mem p (w_attr o a r2 r3 ext ++ four ++ rest) pos ->
  exists b p', parse_attr pl PB p = (Ok b, p') /\
    source PB mo fin cap mem p' rest (pos + (at_size a + 4)) /\
    forall S2 (PB2 : parsebuf S2) mo2 fin2 cap2 mem2 s2 is a2 O (V : visitor O),
    let p2 := new_parser s2 (config_of_attr (pl_host pl) e b) in
    Forall (item_ok (pl_host pl) o w mo2) is ->
    stream_lends pl mo2 (p_cfg p2) o w a2 is ->
    source PB2 mo2 fin2 cap2 mem2 p2 (concat (map (encode o w) is)) a2 ->
    (exists rs, results pl PB2 (length is + 1) p2 = map Ok rs ++ [Err fin2] /\
       map view_record rs = map (fun i => expected_record (i_body i)) is) /\
    (exists bs, map view_body bs = map (fun i => expected (i_body i)) is /\
       visits pl PB2 V (length is + 1) p2 = map (asked V) (combine is bs) ++ [Err fin2]).
Proof.
  intros pl S PB mo fin cap mem p a k r2 r3 ext four rest pos e o w Ho He Hpl Ha Hz H4 Hz4 Hb Hp Hst Hrf Hs.
  destruct (C59_attr_partial pl S PB mo fin cap mem p a k r2 r3 ext four rest pos e) as (b & p' & E & Hc);
    try assumption.
  destruct (C30_decoding_partial pl S PB mo fin cap mem p a r2 r3 ext four rest pos Hpl Ha Hz H4
    (or_intror Hz4) Hs) as (p0 & E0 & Haf & _).
  assert (p0 = p') by congruence. subst p0.
  exists b, p'. split; [exact E|]. split; [exact Haf|].
  intros S2 PB2 mo2 fin2 cap2 mem2 s2 is a2 O V p2 Hok Hl Hs2.
  assert (Ec : order_of pl (c_endian (p_cfg p2)) = o) by exact He.
  split.
  - apply (C02_stream_partial pl S2 PB2 mo2 fin2 cap2 mem2 w is p2 a2); try rewrite Ec; assumption.
  - apply (C61_visitor_partial pl S2 PB2 mo2 fin2 cap2 mem2 w O V is p2 a2); try rewrite Ec; assumption.
Qed.

(** From a machine of the other byte order: no record has a sample_id, and the bytes
    of the sample_id become part of the body. *)
Theorem C61_cross_refuted :
  forall pl S (PB : parsebuf S) mo fin cap mem p a k r2 r3 ext four rest pos e,
  let o := order_of pl (c_endian (p_cfg p)) in
  let w := settings_of a k in
  o <> pl_host pl -> order_of pl e = o ->
  pl_ok pl -> attr_ok a r2 r3 ext -> zero_bytes ext -> len four = 4 -> zero_bytes four ->
  at_bits a = attr_word o k -> kf_precise_ip k < 4 ->
  source PB mo fin cap mem p (w_attr o a r2 r3 ext ++ four ++ rest) pos ->
  exists b p', parse_attr pl PB p = (Ok b, p') /\
    forall S2 (PB2 : parsebuf S2) mo2 fin2 cap2 mem2 s2 t m si body more a2,
    let p2 := new_parser s2 (config_of_attr (pl_host pl) e b) in
    let trailer := w_sample_id o w si in
    let size := 8 + len body + len trailer in
    t <> 1 -> t <> 9 -> t < 2 ^ 32 -> m < 2 ^ 16 -> size < 2 ^ 16 ->
    source PB2 mo2 fin2 cap2 mem2 p2 (w_header o t m size ++ body ++ trailer ++ more) a2 ->
    exists q p3,
      parse_metadata pl PB2 p2 = (Ok (q, mkMeta t m (mkSampleId None None None None None None)), p3) /\
      source cursor_buf mo2 eof_error (size - 8) mem2 q (body ++ trailer) (a2 + 8).
Proof.
  intros pl S PB mo fin cap mem p a k r2 r3 ext four rest pos e o w Ho He Hpl Ha Hz H4 Hz4 Hb Hp Hs.
  destruct (C59_attr_cross_refuted pl S PB mo fin cap mem p a k r2 r3 ext four rest pos e) as (b & p' & E & Hc);
    try assumption.
  exists b, p'. split; [exact E|].
  intros S2 PB2 mo2 fin2 cap2 mem2 s2 t m si body more a2 p2 trailer size H1 H9 Ht Hm Hsz Hs2.
  set (c := config_of_attr (pl_host pl) e b) in *.
  set (w' := mkSettings (sample_type c) (read_format c) false (branch_hw_index c) (c_regs_user c) (c_regs_intr c)).
  set (none := mkSampleId None None None None None None).
  assert (Ec : order_of pl (c_endian (p_cfg p2)) = o) by exact He.
  assert (En : w_sample_id o w' none = []) by (destruct o; reflexivity).
  destruct (C12_metadata pl S2 PB2 mo2 fin2 cap2 mem2 p2 w' t m none (body ++ trailer) more a2)
    as (q & p3 & E3 & Hq & _); try assumption; try rewrite Ec; try rewrite En.
  - repeat split; try reflexivity. exact Hc.
  - repeat split.
  - cbn [len length]. unfold size in Hsz. rewrite len_app. change (len []) with 0. lia.
  - rewrite len_app, <- !app_assoc. cbn [app]. change (len []) with 0.
    replace (8 + (len body + len trailer) + 0) with size by (unfold size; lia). exact Hs2.
  - exists q, p3. split; [exact E3|]. rewrite En in Hq || (rewrite Ec, En in Hq).
    replace (size - 8) with (len (body ++ trailer) + len (@nil N)); [exact Hq|].
    rewrite len_app. change (len (@nil N)) with 0. unfold size. lia.
Qed.

(** A session: the attr of C59 read from memory, the records in pieces of 7 bytes. *)
Definition ex_bytes : list N := w_attr LE (session_attr LE) 0 0 [] ++ [0; 0; 0; 0].
Definition ex_parsed : config :=
  match fst (parse_attr pl64 slice_buf (on_slice 4096 ex_bytes (config_default Little))) with
  | Ok b => config_of_attr LE Little b
  | _ => config_default Little
  end.

Example C61_example :
  let w := settings_of (session_attr LE) ex_flags in
  attr_ok (session_attr LE) 0 0 [] /\ at_bits (session_attr LE) = attr_word LE ex_flags /\
  at_sample_type (session_attr LE) < 2 ^ 40 /\ at_read_format (session_attr LE) < 2 ^ 5 /\
  w = ex_set /\ Forall (item_ok LE LE w NoExt) ex_items /\
  stream_lends pl64 NoExt ex_parsed LE w 0 ex_items /\
  visits pl64 bufreader_buf lost_ids 4
    (reader_of (cut 200 7 (concat (map (encode LE w) ex_items))) ex_parsed) =
  [Ok ex_id; Ok ex_id; Ok ex_id; Err eof_error].
Proof.
  cbv zeta. split; [|split; [reflexivity|split; [reflexivity|split; [reflexivity|split; [reflexivity|]]]]].
  - unfold attr_ok; vm_compute; repeat split; try reflexivity; left; split; [tauto|reflexivity].
  - change (settings_of (session_attr LE) ex_flags) with ex_set. split; [|split].
    + repeat first [right; reflexivity | constructor]; try discriminate; try (vm_compute; reflexivity).
    + repeat split; left; exact I.
    + vm_compute. reflexivity.
Qed.

Print Assumptions C61_visitor_partial.
Print Assumptions C61_session_partial.
Print Assumptions C61_cross_refuted.
