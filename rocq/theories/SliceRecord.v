(** Whole records in one piece of memory, exactly: what [collect] does to a slice. *)
From Coq Require Import ZArith NArith List Bool Lia.
From Verif Require Import Base BaseFacts Types Platform Config Buf Parser Records Sample Record.
From Verif Require Import Flat Prims Slices Wire Codec ConfFacts RefFrame FrameFacts SliceExact.
Import ListNotations.
Open Scope N_scope.

(** ** Parsers that allocate nothing *)

Definition quiet {S A : Type} (m : M S A) : Prop :=
  forall p x p', m p = (Ok x, p') -> p_log p' = p_log p.

Section Quiet.
Context {S : Type} (PB : parsebuf S) (pl : platform).

Lemma quiet_ret : forall A (x : A), quiet (S := S) (ret x).
Proof. intros A x p y p' E. injection E as _ <-. reflexivity. Qed.
Lemma quiet_cfg : quiet (S := S) get_cfg.
Proof. intros p y p' E. injection E as _ <-. reflexivity. Qed.
Lemma quiet_bind : forall A B (m : M S A) (k : A -> M S B),
  quiet m -> (forall x, quiet (k x)) -> quiet (bind m k).
Proof.
  intros A B m k Hm Hk p x p' E. unfold bind in E.
  destruct (m p) as [[y|e| |] p1] eqn:Em; try discriminate.
  rewrite (Hk y p1 x p' E). exact (Hm p y p1 Em).
Qed.
Lemma quiet_chunk : quiet (m_chunk PB).
Proof.
  intros p x p' E. unfold m_chunk in E. destruct (pb_chunk PB (p_buf p)). injection E as _ <-. reflexivity.
Qed.
Lemma quiet_advance : forall n, quiet (m_advance PB n).
Proof.
  intros n p x p' E. unfold m_advance in E. destruct (pb_advance PB (p_buf p) n). injection E as _ <-. reflexivity.
Qed.
Lemma quiet_loop : forall St B (f : St -> M S (St + B)), (forall x, quiet (f x)) ->
  forall x, quiet (loop f x).
Proof.
  intros St B f H x p b p' E.
  apply (loop_inv f (fun q => p_log q = p_log p) ) with (x := x) (p := p) (b := b) (p' := p'); auto.
  intros y q r q' Hq Eq. rewrite (H y q r q' Eq). exact Hq.
Qed.
Lemma quiet_array : forall n, quiet (parse_array PB n).
Proof.
  intros n. unfold parse_array. apply quiet_bind; [apply quiet_chunk|]. intros ch.
  destruct (_ <? _).
  - unfold parse_to_slice. apply quiet_loop. intros [i dst]. destruct (i =? 0); [apply quiet_ret|].
    apply quiet_bind; [apply quiet_chunk|]. intros c2. cbv zeta.
    apply quiet_bind; [apply quiet_advance|]. intros _. apply quiet_ret.
  - apply quiet_bind; [apply quiet_advance|]. intros _. apply quiet_ret.
Qed.
Lemma quiet_u32 : quiet (parse_u32 pl PB).
Proof.
  unfold parse_u32. apply quiet_bind; [apply quiet_array|]. intros x.
  apply quiet_bind; [apply quiet_cfg|]. intros c. apply quiet_ret.
Qed.
Lemma quiet_u64 : quiet (parse_u64 pl PB).
Proof.
  unfold parse_u64. apply quiet_bind; [apply quiet_array|]. intros x.
  apply quiet_bind; [apply quiet_cfg|]. intros c. apply quiet_ret.
Qed.
Lemma quiet_if : forall A b (m : M S A), quiet m -> quiet (parse_if b m).
Proof.
  intros A b m H. unfold parse_if. destruct b; [|apply quiet_ret].
  apply quiet_bind; [exact H|]. intros x. apply quiet_ret.
Qed.
Lemma quiet_sample_id : quiet (parse_sample_id pl PB).
Proof.
  unfold parse_sample_id. apply quiet_bind; [apply quiet_cfg|]. intros c. cbv zeta.
  destruct (negb _); [apply quiet_ret|].
  repeat (apply quiet_bind; [apply quiet_if; first
    [ apply quiet_u32 | apply quiet_u64
    | apply quiet_bind; [apply quiet_u32|]; intros ?; apply quiet_bind; [apply quiet_u32|]; intros ?; apply quiet_ret ]
    |]; intros ?). apply quiet_ret.
Qed.
End Quiet.

(** ** After the record has been split off *)

(** What [collect_with_header] does with the cursor over the record. *)
Definition finish (pl : platform) {S : Type} (h : header) (rp : parser cursor) : M S (body cow * metadata) :=
  r <- (if (h_type h =? PERF_RECORD_MMAP) || (h_type h =? PERF_RECORD_SAMPLE)
        then ret (rp, new_metadata h sample_id_default)
        else
          match checked_sub (h_size h - 8) (estimate_len (p_cfg rp)) with
          | None => fail (custom_error KInvalidRecord MsgNoRoomForSampleId)
          | Some remaining_len =>
              r <- sub (p <- split_at cursor_buf remaining_len ;;
                        si <- parse_sample_id pl cursor_buf ;;
                        ret (p, si)) rp ;;
              ret (fst r, new_metadata h (snd r))
          end) ;;
  let '(p, md) := r in
  match cursor_as_slice (p_buf p) with
  | Some data =>
      b <- sub (parse_body pl slice_buf (md_ty md)) (new_parser data (with_misc (p_cfg p) (md_misc md))) ;;
      ret (b, md)
  | None =>
      b <- sub (parse_body pl cursor_buf (md_ty md))
             (new_parser (p_buf p) (with_misc (p_cfg p) (md_misc md))) ;;
      ret (b, md)
  end.

Lemma collect_finish : forall pl S (PB : parsebuf S) h p, 8 <= h_size h ->
  collect_with_header pl PB h p = (rp <- split_at PB (h_size h - 8) ;; finish pl h rp) p.
Proof.
  intros pl S PB h p H. unfold collect_with_header, parse_metadata_with_header, finish.
  assert (E : checked_sub (h_size h) 8 = Some (h_size h - 8)).
  { unfold checked_sub. now rewrite (proj2 (N.leb_le _ _) H). }
  rewrite E. rewrite bind_assoc. reflexivity.
Qed.

(** It depends on the cursor only. *)
Lemma finish_frame : forall pl h rp, exists r log, forall S (p : parser S),
  finish pl h rp p = (r, mkParser (p_cfg p) (p_buf p) (p_off p) (log ++ p_log p)).
Proof.
  intros pl h rp. unfold finish.
  set (k := fun S => fun r : parser cursor * metadata => let '(p, md) := r in
    match cursor_as_slice (p_buf p) with
    | Some data =>
        b <- sub (S := S) (parse_body pl slice_buf (md_ty md)) (new_parser data (with_misc (p_cfg p) (md_misc md))) ;;
        ret (b, md)
    | None =>
        b <- sub (parse_body pl cursor_buf (md_ty md))
               (new_parser (p_buf p) (with_misc (p_cfg p) (md_misc md))) ;;
        ret (b, md)
    end).
  assert (Hk : forall q md, exists r log, forall S (p : parser S),
    k S (q, md) p = (r, mkParser (p_cfg p) (p_buf p) (p_off p) (log ++ p_log p))).
  { intros q md. unfold k. destruct (cursor_as_slice (p_buf q)) as [data|]; unfold bind, sub.
    - destruct (parse_body pl slice_buf _ _) as [[b|e| |] q'];
        eexists _, (p_log q'); intros S p; cbn [ret]; reflexivity.
    - destruct (parse_body pl cursor_buf _ _) as [[b|e| |] q'];
        eexists _, (p_log q'); intros S p; cbn [ret]; reflexivity. }
  destruct (_ || _).
  - destruct (Hk rp (new_metadata h sample_id_default)) as (r & log & H).
    exists r, log. intros S p. exact (H S p).
  - destruct (checked_sub _ _) as [n|].
    + destruct ((p <- split_at cursor_buf n;; si <- parse_sample_id pl cursor_buf;; ret (p, si)) rp)
        as [[[q si]|e| |] q'] eqn:E.
      * destruct (Hk q (new_metadata h si)) as (r & log & H).
        exists r, (log ++ p_log q'). intros S p. unfold bind at 1 2, sub at 1. rewrite E. cbn [ret fst snd].
        etransitivity; [exact (H S _)|]. cbn [p_cfg p_buf p_off p_log]. now rewrite <- app_assoc.
      * exists (Err e), (p_log q'). intros S p. unfold bind at 1 2, sub at 1. rewrite E. reflexivity.
      * exists Panic, (p_log q'). intros S p. unfold bind at 1 2, sub at 1. rewrite E. reflexivity.
      * exists Fuel, (p_log q'). intros S p. unfold bind at 1 2, sub at 1. rewrite E. reflexivity.
    + eexists _, []. intros S [c s off log]. unfold bind, fail, lift. reflexivity.
Qed.

Lemma w_header_bytes : forall o t m size, bytes (w_header o t m size).
Proof. intros. unfold w_header, bytes. rewrite !Forall_app. repeat split; apply enc_bytes. Qed.

Section Slice.
Context (pl : platform) (c : config).

Definition head_of (l : list N) : header :=
  let o := order_of pl (c_endian c) in
  mkHeader (from_order o (take 4 l)) (from_order o (take 2 (drop 4 l))) (from_order o (take 2 (drop 6 l))).

Lemma head_of_header : forall t m size rest, t < 2 ^ 32 -> m < 2 ^ 16 -> size < 2 ^ 16 ->
  head_of (w_header (order_of pl (c_endian c)) t m size ++ rest) = mkHeader t m size.
Proof.
  intros t m size rest Ht Hm Hz. unfold head_of. cbv zeta. set (o := order_of pl (c_endian c)).
  unfold w_header. rewrite <- !app_assoc. f_equal.
  - rewrite take_app_exact by now rewrite w32_len. now apply from_enc.
  - rewrite drop_app_exact by now rewrite w32_len. rewrite take_app_exact by now rewrite w16_len. now apply from_enc.
  - change 6 with (4 + 2). rewrite <- drop_drop, drop_app_exact by now rewrite w32_len.
    rewrite drop_app_exact by now rewrite w16_len. rewrite take_app_exact by now rewrite w16_len. now apply from_enc.
Qed.

(** The whole record, when it is there. *)
Lemma collect_slice : forall a d, 8 <= h_size (head_of d) <= len d ->
  let h := head_of d in
  collect pl slice_buf (new_parser (mkSlice a d) c) =
  finish pl h (new_parser (borrowed_cursor (a + 8) (take (h_size h - 8) (drop 8 d))) c)
         (mkParser c (mkSlice (a + h_size h) (drop (h_size h) d)) (h_size h) []).
Proof.
  intros a d Hs h. unfold collect.
  assert (E0 : new_parser (mkSlice a d) c = at_ c a d 0 0 []).
  { unfold at_, new_parser. now rewrite drop_0, !N.add_0_r. }
  rewrite E0, (bind_run _ _ _ _ _ (at_header pl c a d 0 [] ltac:(lia))). fold h.
  change (mkHeader _ _ _) with h.
  rewrite collect_finish by (unfold h; lia).
  rewrite (bind_run _ _ _ _ _ (at_split c a d 0 8 (h_size h - 8) [] ltac:(unfold h; lia))).
  unfold at_. replace (8 + (h_size h - 8)) with (h_size h) by (unfold h; lia). reflexivity.
Qed.

(** A header that counts too few bytes. *)
Lemma collect_slice_small : forall a d, 8 <= len d -> h_size (head_of d) < 8 ->
  collect pl slice_buf (new_parser (mkSlice a d) c) =
  (Err (custom_error KInvalidRecord MsgHeaderTooSmall), mkParser c (mkSlice (a + 8) (drop 8 d)) 8 []).
Proof.
  intros a d Hd Hs. unfold collect.
  assert (E0 : new_parser (mkSlice a d) c = at_ c a d 0 0 []).
  { unfold at_, new_parser. now rewrite drop_0, !N.add_0_r. }
  rewrite E0, (bind_run _ _ _ _ _ (at_header pl c a d 0 [] ltac:(lia))).
  unfold collect_with_header, parse_metadata_with_header, checked_sub. cbn [h_size].
  unfold head_of in Hs. cbv zeta in Hs. cbn [h_size] in Hs. apply N.leb_gt in Hs. rewrite Hs. reflexivity.
Qed.

(** Length of the trailer behind the body of a record of type [t]. *)
Definition trailer (t : N) : N := if (t =? 1) || (t =? 9) then 0 else estimate_len c.

(** The body is parsed where it is. *)
Lemma wp_finish : forall a h data S (p : parser S), len data = h_size h - 8 ->
  trailer (h_type h) < len data ->
  let body := take (len data - trailer (h_type h)) data in
  wp (finish pl h (new_parser (borrowed_cursor a data) c)) p
     (fun r p' => located pl (with_misc c (h_misc h)) a body (fst r) /\
        (no_array_types (with_misc c (h_misc h)) (h_type h) -> p_log p' = p_log p)).
Proof.
  intros a h data S p Hl Ht body. unfold finish.
  assert (Hb : body <> []).
  { intros E. apply (f_equal len) in E. unfold body in E. rewrite len_take in E. cbn in E. lia. }
  set (k := fun r : parser cursor * metadata => let '(p, md) := r in
    match cursor_as_slice (p_buf p) with
    | Some data =>
        b <- sub (S := S) (parse_body pl slice_buf (md_ty md)) (new_parser data (with_misc (p_cfg p) (md_misc md))) ;;
        ret (b, md)
    | None =>
        b <- sub (parse_body pl cursor_buf (md_ty md))
               (new_parser (p_buf p) (with_misc (p_cfg p) (md_misc md))) ;;
        ret (b, md)
    end).
  assert (Hk : forall md q, md_ty md = h_type h -> md_misc md = h_misc h -> p_log q = p_log p ->
    wp (k (new_parser (borrowed_cursor a body) c, md)) q
      (fun r p' => located pl (with_misc c (h_misc h)) a body (fst r) /\
        (no_array_types (with_misc c (h_misc h)) (h_type h) -> p_log p' = p_log p))).
  { intros md q E1 E2 E3. unfold k. cbn [p_buf p_cfg new_parser].
    assert (Ec : cursor_as_slice (borrowed_cursor a body) = Some (mkSlice a body)).
    { unfold borrowed_cursor. destruct body; [contradiction|reflexivity]. }
    rewrite Ec, E1, E2. apply wp_bind. unfold sub, wp.
    pose proof (wp_body pl (with_misc c (h_misc h)) a body 0 (h_type h) []) as G. unfold wp in G.
    assert (Ea : new_parser (mkSlice a body) (with_misc c (h_misc h)) = at_ (with_misc c (h_misc h)) a body 0 0 []).
    { unfold at_, new_parser. now rewrite drop_0, !N.add_0_r. }
    rewrite Ea. destruct (parse_body pl slice_buf (h_type h) _) as [[b|e| |] q']; try exact I.
    destruct G as [G1 G2]. cbn [ret fst p_log]. split; [exact G1|].
    intros Hn. rewrite (G2 Hn). exact E3. }
  apply wp_bind. fold k. unfold trailer in *. destruct (_ || _).
  - apply wp_ret. replace data with body at 1.
    + apply Hk; reflexivity.
    + unfold body. rewrite N.sub_0_r. apply take_all. lia.
  - cbn [p_cfg new_parser]. unfold checked_sub. rewrite <- Hl.
    replace (estimate_len c <=? len data) with true by (symmetry; apply N.leb_le; lia).
    apply wp_bind. unfold sub, wp. unfold new_parser at 1. 
    destruct (cursor_split a data c 0 [] (len data - estimate_len c) ltac:(lia)) as (p1 & E1 & E2).
    rewrite (bind_run _ _ _ _ _ E1). unfold bind at 1.
    destruct (parse_sample_id pl cursor_buf p1) as [[si|e| |] p2] eqn:E3; try exact I.
    cbn [ret fst snd]. apply Hk; [reflexivity|reflexivity|].
    cbn [p_log]. rewrite (quiet_sample_id cursor_buf pl p1 si p2 E3), E2. reflexivity.
Qed.
End Slice.
