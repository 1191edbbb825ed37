(** C76: the count of bytes taken, a [usize]. *)
From Coq Require Import NArith List Bool Lia.
From Verif Require Import Base BaseFacts Types Platform Config Buf Parser Contract Flat Refine Instances Prims.
From Verif Require Import Records Sample Record Attr Views Wire Roundtrip RtRecord Spec ExData RoundFacts Client NoHint.
From Verif Require Import PropsFrame PropsSafe PropsRound PropsSession PropsClient Counter CounterFacts.
Import ListNotations.
Open Scope N_scope.

(** ** Builds with overflow checks. *)

(** Whatever the program and the source: it takes [n] bytes and ends well, in a build which cannot
    overflow.  Then in one which checks, the program does the same if the bytes taken so far and these [n]
    can be counted in a [usize], and panics if not. *)
Theorem C76_program : forall pl A (m : prog A) S (PB : parsebuf S) mo fin cap mem p l a,
  pl_ok pl -> cap <= isize_max pl -> source PB mo fin cap mem p l a -> p_off p <= usize_max pl ->
  exists r n p', match r with Ok _ | Err _ => True | Panic | Fuel => False end /\
    run pl m S PB p = (r, p') /\ moved PB mo fin cap mem l a p n p' /\
    (p_off p + n <= usize_max pl -> run pl m _ (counting pl PB) (counted p) = (r, counted p')) /\
    (usize_max pl < p_off p + n -> fst (run pl m _ (counting pl PB) (counted p)) = Panic).
Proof.
  intros pl A m S PB mo fin cap mem p l a Hpl Hcap Hs Hp.
  destruct (C70_ends pl A m S PB mo fin cap mem p l a Hpl Hcap Hs) as (r & n & _ & p' & Hr & E & M & _).
  exists r, n, p'. split; [exact Hr|]. split; [exact E|]. split; [exact M|].
  destruct M as (_ & _ & _ & Eo). destruct (counts_run pl PB A m p) as (_ & H2 & H3).
  rewrite E in H2, H3. cbn [fst snd] in H2, H3. rewrite Eo in H2, H3. split; [exact H2|now apply H3].
Qed.

(** Sources which break the contract are no different. *)
Theorem C76_any_source : forall pl A (m : prog A) S (PB : parsebuf S) p,
  p_off p <= usize_max pl ->
  fst (run pl m _ (counting pl PB) (counted p)) =
    if p_off (snd (run pl m S PB p)) <=? usize_max pl then fst (run pl m S PB p) else Panic.
Proof.
  intros pl A m S PB p Hp. destruct (counts_run pl PB A m p) as (_ & H2 & H3).
  destruct (N.leb_spec (p_off (snd (run pl m S PB p))) (usize_max pl)) as [H|H]; [now rewrite (H2 H)|now apply H3].
Qed.

(** The same for a record. *)
Theorem C76_record : forall pl S (PB : parsebuf S) mo fin cap mem O (V : visitor O) p l a,
  pl_ok pl -> source PB mo fin cap mem p l a -> p_off p <= usize_max pl ->
  exists n, moved PB mo fin cap mem l a p n (snd (parse_record pl PB V p)) /\
    (p_off p + n <= usize_max pl ->
       parse_record pl (counting pl PB) V (counted p) =
       (fst (parse_record pl PB V p), counted (snd (parse_record pl PB V p)))) /\
    (usize_max pl < p_off p + n -> fst (parse_record pl (counting pl PB) V (counted p)) = Panic).
Proof.
  intros pl S PB mo fin cap mem O V p l a Hpl Hs Hp.
  destruct (C04_record pl S PB mo fin cap mem O V p l a Hpl Hs) as (_ & n & M). exists n. split; [exact M|].
  destruct M as (_ & _ & _ & Eo). destruct (counts_record pl PB O V p) as (_ & H2 & H3).
  rewrite Eo in H2, H3. split; [exact H2|now apply H3].
Qed.

(** ** Where there is no difference: what is left can be counted. *)

Theorem C76_room : forall pl A (m : prog A) S (PB : parsebuf S) mo fin cap mem p l a,
  pl_ok pl -> cap <= isize_max pl -> source PB mo fin cap mem p l a -> p_off p + len l <= usize_max pl ->
  fst (run pl m _ (counting pl PB) (counted p)) = fst (run pl m S PB p).
Proof.
  intros pl A m S PB mo fin cap mem p l a Hpl Hcap Hs Hp.
  destruct (C76_program pl A m S PB mo fin cap mem p l a Hpl Hcap Hs) as (r & n & p' & _ & E & M & H & _); [lia|].
  rewrite E, H; [reflexivity|]. destruct M. lia.
Qed.

Lemma limits_le : forall pl, pl_ok pl -> isize_max pl <= usize_max pl /\ isize_max pl < 2 ^ 64.
Proof. intros pl Hpl. unfold isize_max, usize_max. destruct Hpl as [-> | ->]; split; reflexivity || discriminate. Qed.

(** Memory is at most [isize::MAX] bytes. *)
Theorem C76_memory : forall pl A (m : prog A) d a c,
  pl_ok pl -> bytes d -> len d <= isize_max pl ->
  fst (run pl m _ (counting pl slice_buf) (counted (on_slice a d c))) = fst (run pl m slice slice_buf (on_slice a d c)).
Proof.
  intros pl A m d a c Hpl Hb Hl.
  pose proof (limits_le pl Hpl).
  apply (C76_room pl A m slice slice_buf Whole eof_error (len d) (memory_of a d) (on_slice a d c) d a); try assumption.
  - apply slice_source; [exact Hb|lia|apply N.le_refl|apply memory_of_at].
  - cbn [on_slice new_parser p_off]. lia.
Qed.

(** The parser for the bytes of a record or an attr counts from nothing again, and these bytes are
    in memory. *)
Theorem C76_inside : forall pl A (m : prog A) S (PB : parsebuf S) mo fin cap mem p l a n q p',
  pl_ok pl -> source PB mo fin cap mem p l a -> n <= isize_max pl -> split_at PB n p = (Ok q, p') ->
  p_off q = 0 /\
  fst (run pl m _ (counting pl cursor_buf) (counted q)) = fst (run pl m cursor cursor_buf q).
Proof.
  intros pl A m S PB mo fin cap mem p l a n q p' Hpl (rep & HC & Hr & Hw) Hn E.
  rewrite <- (N.add_0_r a) in Hr. pose proof (split_spec PB mo fin cap mem rep a HC n p l 0 Hr Hw) as H.
  destruct (f_split n _ l 0) as [st l' pos' ev|e l' pos' ev].
  - destruct H as (q1 & p1 & E1 & (_ & Ho & _ & _ & _ & Hwq & Hq) & _ & Hl & _).
    rewrite E in E1. injection E1 as <- <-. split; [exact Ho|].
    apply (C76_room pl A m cursor cursor_buf mo eof_error n mem q (fst st) (a + snd st)); try assumption.
    + exists (cursor_rep mo n mem). split; [apply cursor_contract|]. split; [exact Hq|exact Hwq].
    + rewrite Ho, Hl. pose proof (limits_le pl Hpl). lia.
  - destruct H as (p1 & E1 & _). rewrite E in E1. discriminate E1.
Qed.

(** ** Streams of records. *)

(** [n] calls of [parse_record] later. *)
Fixpoint later (pl : platform) {S O : Type} (PB : parsebuf S) (V : visitor O) (n : nat) (p : parser S) : parser S :=
  match n with
  | O => p
  | Datatypes.S k => later pl PB V k (snd (parse_record pl PB V p))
  end.

Lemma later_grows : forall pl S (PB : parsebuf S) O (V : visitor O) n p, p_off p <= p_off (later pl PB V n p).
Proof.
  intros pl S PB O V n. induction n as [|n IH]; intros p; cbn [later]; [lia|].
  etransitivity; [apply (counts_record pl PB O V p)|apply IH].
Qed.

Lemma visits_counted : forall pl S (PB : parsebuf S) O (V : visitor O) n p,
  p_off (later pl PB V n p) <= usize_max pl ->
  visits pl (counting pl PB) V n (counted p) = visits pl PB V n p.
Proof.
  intros pl S PB O V n. induction n as [|n IH]; intros p H; [reflexivity|]. cbn [visits later] in *.
  destruct (counts_record pl PB O V p) as (_ & H2 & _). rewrite H2.
  - destruct (parse_record pl PB V p) as [r p']. cbn [fst snd] in *. now rewrite IH.
  - etransitivity; [apply later_grows|exact H].
Qed.

Lemma visits_overflow : forall pl S (PB : parsebuf S) O (V : visitor O) n p,
  p_off (later pl PB V n p) <= usize_max pl -> usize_max pl < p_off (later pl PB V (n + 1) p) ->
  visits pl (counting pl PB) V (n + 1) (counted p) = visits pl PB V n p ++ [Panic].
Proof.
  intros pl S PB O V n. induction n as [|n IH]; intros p H1 H2; cbn [later Nat.add visits app] in *.
  - destruct (counts_record pl PB O V p) as (_ & _ & H3). specialize (H3 H1 H2).
    destruct (parse_record pl (counting pl PB) V (counted p)) as [r q]. cbn [fst] in H3. now subst r.
  - destruct (counts_record pl PB O V p) as (_ & H3 & _). rewrite H3.
    + destruct (parse_record pl PB V p) as [r p']. cbn [fst snd app] in *. now rewrite IH.
    + etransitivity; [apply later_grows|exact H1].
Qed.

Lemma stream_lends_front : forall pl mo c o w is js a, stream_lends pl mo c o w a (is ++ js) -> stream_lends pl mo c o w a is.
Proof. intros pl mo c o w is js. induction is as [|i is IH]; intros a H; [exact I|]. destruct H as [H1 H2]. split; [exact H1|now apply IH]. Qed.

(** The position after [length is] records. *)
Lemma later_items : forall pl S (PB : parsebuf S) mo fin cap mem w O (V : visitor O) is rest p a,
  let o := order_of pl (c_endian (p_cfg p)) in
  pl_ok pl -> configured (p_cfg p) w -> Forall (item_ok (pl_host pl) o w mo) is ->
  stream_lends pl mo (p_cfg p) o w a is ->
  source PB mo fin cap mem p (concat (map (encode o w) is) ++ rest) a ->
  p_off (later pl PB V (length is) p) = p_off p + len (concat (map (encode o w) is)).
Proof.
  intros pl S PB mo fin cap mem w O V is rest.
  induction is as [|i is IH]; intros p a o Hpl Hcf Hok Hl Hs.
  - cbn [length later map concat len]. rewrite len_nil. lia.
  - inversion Hok as [|? ? (H1 & H2 & H3 & H4 & H5) Hok']; subst. destruct Hl as [Hl1 Hl2].
    cbn [map concat] in Hs. rewrite <- app_assoc in Hs.
    destruct (record_reads pl PB mo fin cap mem Hpl O V w p (i_misc i) (i_id i) (i_body i)
      (concat (map (encode o w) is) ++ rest) a) as (b & p' & E & Hv & _ & Ha); try assumption.
    destruct Ha as (Hs' & Hc & Ho).
    cbn [length later map concat]. rewrite E. cbn [snd]. rewrite (IH p' (a + len (encode o w i))); try (rewrite Hc); try assumption.
    rewrite Ho, len_app. fold o. unfold encode at 2. lia.
Qed.

(** Records of any kinds, one after another, from the start of a source: those which end within the first
    [usize::MAX] bytes are given, and the next one panics. *)
Theorem C76_stream : forall pl S (PB : parsebuf S) mo fin cap mem w O (V : visitor O) is i rest p a,
  let o := order_of pl (c_endian (p_cfg p)) in
  pl_ok pl -> configured (p_cfg p) w -> Forall (item_ok (pl_host pl) o w mo) (is ++ [i]) ->
  stream_lends pl mo (p_cfg p) o w a (is ++ [i]) ->
  source PB mo fin cap mem p (concat (map (encode o w) (is ++ [i])) ++ rest) a -> p_off p = 0 ->
  len (concat (map (encode o w) is)) <= usize_max pl ->
  usize_max pl < len (concat (map (encode o w) (is ++ [i]))) ->
  visits pl (counting pl PB) V (length is) (counted p) = visits pl PB V (length is) p /\
  visits pl (counting pl PB) V (length is + 1) (counted p) = visits pl PB V (length is) p ++ [Panic].
Proof.
  intros pl S PB mo fin cap mem w O V is i rest p a o Hpl Hcf Hok Hl Hs Hp H1 H2.
  assert (E1 : p_off (later pl PB V (length is) p) = len (concat (map (encode o w) is))).
  { rewrite <- (N.add_0_l (len _)), <- Hp. unfold o.
    apply (later_items pl S PB mo fin cap mem w O V is (encode o w i ++ rest) p a Hpl Hcf).
    - now apply Forall_app in Hok.
    - now apply stream_lends_front in Hl.
    - rewrite map_app, concat_app in Hs. cbn [map concat] in Hs. now rewrite app_nil_r, <- app_assoc in Hs. }
  assert (E2 : p_off (later pl PB V (length is + 1) p) = len (concat (map (encode o w) (is ++ [i])))).
  { replace (length is + 1)%nat with (length (is ++ [i])) by now rewrite app_length.
    rewrite <- (N.add_0_l (len _)), <- Hp. unfold o.
    now apply (later_items pl S PB mo fin cap mem w O V (is ++ [i]) rest p a Hpl Hcf). }
  split; [apply visits_counted|apply visits_overflow]; lia.
Qed.

Lemma some_nat : forall n, exists k, N.of_nat k = n.
Proof. intros n. exists (N.to_nat n). apply N2Nat.id. Qed.

(** Full statement: how much has been read does not matter.  It does on 32-bit hosts, which read files of
    more than 4 GiB through a [BufReader]: here 107374183 LOST records of 40 bytes. *)
Theorem C76_long_refuted : forall O (V : visitor O), exists is rs,
  let p := reader_of rs ex_cfg in
  Forall (item_ok LE LE ex_set NoExt) is /\ Forall (fun r => len r = 40) rs /\
  concat rs = concat (map (encode LE ex_set) is) /\ 2 ^ 32 <= len (concat rs) < 2 ^ 32 + 40 /\
  (exists bs, map view_body bs = map (fun i => expected (i_body i)) is /\
     visits pl32 bufreader_buf V (length is + 1) p = map (asked V) (combine is bs) ++ [Err eof_error]) /\
  (exists done, visits pl32 (counting pl32 bufreader_buf) V (length is) (counted p) = done ++ [Panic]).
Proof.
  intros O V. set (i := mkItem 1 ex_id (WLost (mkLost 7 9))).
  assert (Ei : len (encode LE ex_set i) = 40) by reflexivity.
  assert (Hb : bytes (encode LE ex_set i)) by (vm_compute; repeat constructor).
  assert (Hi : item_ok LE LE ex_set NoExt i) by (repeat first [right; reflexivity | constructor]).
  destruct (some_nat 107374182) as (k & Hk).
  set (is := repeat i k).
  assert (El : forall n, len (concat (map (encode LE ex_set) (repeat i n))) = 40 * N.of_nat n).
  { induction n as [|n IH]; [reflexivity|]. cbn [repeat map concat]. rewrite len_app, IH, Ei. lia. }
  assert (Es : is ++ [i] = repeat i (k + 1)).
  { unfold is. change [i] with (repeat i 1). symmetry. apply repeat_app. }
  exists (is ++ [i]), (map (encode LE ex_set) (is ++ [i])). cbv zeta. rewrite Es.
  assert (F1 : Forall (item_ok LE LE ex_set NoExt) (repeat i (k + 1))).
  { apply Forall_forall. intros x Hx. apply repeat_spec in Hx. now subst x. }
  assert (F2 : Forall (fun r => len r = 40) (map (encode LE ex_set) (repeat i (k + 1)))).
  { apply Forall_forall. intros x Hx. apply in_map_iff in Hx as (y & <- & Hy). apply repeat_spec in Hy. now subst y. }
  assert (Hall : len (concat (map (encode LE ex_set) (repeat i (k + 1)))) = 4294967320).
  { rewrite El. lia. }
  assert (Hlends : forall n a, stream_lends pl32 NoExt ex_cfg LE ex_set a (repeat i n)).
  { induction n as [|n IH]; intros a; [exact I|]. split; [now left|apply IH]. }
  assert (Hbs : forall n, bytes (concat (map (encode LE ex_set) (repeat i n)))).
  { induction n as [|n IH]; [constructor|]. cbn [repeat map concat]. apply Forall_app. now split. }
  assert (Hs : source bufreader_buf NoExt eof_error 16384 (fun _ => 0)
    (reader_of (map (encode LE ex_set) (repeat i (k + 1))) ex_cfg) (concat (map (encode LE ex_set) (repeat i (k + 1)))) 0).
  { apply (reader_source [] (map (encode LE ex_set) (repeat i (k + 1))) None).
    - apply N.le_refl.
    - apply Hbs.
    - cbn [app]. rewrite Hall. reflexivity.
    - eapply Forall_impl; [|exact F2]. cbv beta. intros r Hr ->. discriminate Hr. }
  split; [exact F1|]. split; [exact F2|]. split; [reflexivity|]. split; [rewrite Hall; split; [discriminate|reflexivity]|]. split.
  - apply (C61_visitor_partial pl32 bufreader bufreader_buf NoExt eof_error 16384 (fun _ => 0) ex_set O V
      (repeat i (k + 1)) (reader_of (map (encode LE ex_set) (repeat i (k + 1))) ex_cfg) 0).
    + now left.
    + repeat split.
    + exact F1.
    + apply Hlends.
    + exact Hs.
  - exists (visits pl32 bufreader_buf V (length is) (reader_of (map (encode LE ex_set) (repeat i (k + 1))) ex_cfg)).
    replace (length (repeat i (k + 1))) with (length is + 1)%nat by (unfold is; now rewrite !repeat_length).
    rewrite <- Es.
    apply (C76_stream pl32 bufreader bufreader_buf NoExt eof_error 16384 (fun _ => 0) ex_set O V is i []
      (reader_of (map (encode LE ex_set) (is ++ [i])) ex_cfg) 0).
    + now left.
    + repeat split.
    + rewrite Es. exact F1.
    + rewrite Es. apply Hlends.
    + rewrite Es, app_nil_r. exact Hs.
    + reflexivity.
    + change (order_of pl32 (c_endian (p_cfg (reader_of (map (encode LE ex_set) (is ++ [i])) ex_cfg)))) with LE.
      unfold is. rewrite El, Hk. discriminate.
    + change (order_of pl32 (c_endian (p_cfg (reader_of (map (encode LE ex_set) (is ++ [i])) ex_cfg)))) with LE.
      rewrite Es, Hall. reflexivity.
Qed.

(** ** Builds without overflow checks. *)

(** The count wraps around, and padding comes out the same: what it is added to is short, or the padding
    divides the number of values of [usize]. *)
Theorem C76_padded : forall pl S (PB : parsebuf S) A (m : prog A) padding p,
  p_off (snd (run pl m S PB p)) - p_off p < 2 ^ pl_bits pl \/ (padding | 2 ^ pl_bits pl) ->
  parse_padded_wrapping pl PB padding (run pl m S PB) p = parse_padded PB padding (run pl m S PB) p.
Proof.
  intros pl S PB A m padding p H. apply padded_wraps; [|exact H]. apply (counts_run pl PB A m p).
Qed.

(** The RAW field is the only use of padding: it is the same however far into the source, and however
    long the field. *)
Theorem C76_raw : forall pl S (PB : parsebuf S) p, pl_ok pl ->
  parse_padded_wrapping pl PB 8 (size <- parse_u32 pl PB ;; parse_bytes pl PB (as_usize pl size)) p = parse_raw pl PB p.
Proof.
  intros pl S PB p Hpl. apply padded_wraps.
  - apply (counts_bind pl _ _ _ (parse_u32 pl (counting pl PB)) (fun size => parse_bytes pl PB (as_usize pl size))
      (fun size => parse_bytes pl (counting pl PB) (as_usize pl size))); [apply counts_u32|]. intros x. apply counts_bytes.
  - right. destruct Hpl as [-> | ->]; [exists (2 ^ 29)|exists (2 ^ 61)]; reflexivity.
Qed.

(** ** Examples: 48 bytes from the end of what can be counted, two records of 40 bytes. *)
Example C76_example :
  let d := ex_lost ++ ex_lost in
  let p := mkParser ex_cfg (mkReader [] [d] None) (usize_max pl32 - 48) [] in
  source bufreader_buf NoExt eof_error 16384 (fun _ => 0) p d 0 /\
  map (fun r => match r with Ok _ => true | _ => false end) (visits pl32 bufreader_buf keep 2 p) = [true; true] /\
  visits pl32 (counting pl32 bufreader_buf) keep 2 (counted p) =
    [Ok (BLost (mkLost 7 9), mkMeta 2 1 ex_id); Panic] /\
  fst (run pl64 (PBytes 40) _ (counting pl64 bufreader_buf) (counted p)) = fst (run pl64 (PBytes 40) _ bufreader_buf p).
Proof.
  cbv zeta. split; [|split; [vm_compute; reflexivity|split; vm_compute; reflexivity]].
  exists (reader_rep None). split; [exact (reader_contract None 16384 (fun _ => 0) (N.le_refl _))|]. split; [|split; [vm_compute; repeat constructor|reflexivity]].
  repeat split; repeat constructor; discriminate.
Qed.

(** A RAW field across the point where the count wraps. *)
Example C76_example_raw :
  let d := w32 LE 5 ++ [1; 2; 3; 4; 5; 0; 0; 0; 0; 0; 0; 0] ++ [9] in
  let p := mkParser ex_cfg (mkSlice 4096 d) (2 ^ 32 - 3) [] in
  wrapping pl32 (p_off p) = 2 ^ 32 - 3 /\
  parse_raw pl32 slice_buf p = (Ok (Borrowed 4100 [1; 2; 3; 4; 5]), mkParser ex_cfg (mkSlice 4112 [9]) (2 ^ 32 + 13) []) /\
  wrapping pl32 (2 ^ 32 + 13) = 13.
Proof. repeat split; vm_compute; reflexivity. Qed.

Print Assumptions C76_program.
Print Assumptions C76_any_source.
Print Assumptions C76_record.
Print Assumptions C76_room.
Print Assumptions C76_memory.
Print Assumptions C76_inside.
Print Assumptions C76_stream.
Print Assumptions C76_long_refuted.
Print Assumptions C76_padded.
Print Assumptions C76_raw.
