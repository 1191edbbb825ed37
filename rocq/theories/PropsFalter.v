(** C75: sources which fail and then go on. *)
From Coq Require Import NArith List Bool Lia.
From Verif Require Import Base BaseFacts Types Platform Config Buf Parser Contract Flat Refine.
From Verif Require Import Instances Records Sample Record Attr Views Wire Codec Roundtrip RtRecord Spec FrameFacts ConfFacts RoundFacts Client ClientFacts ClientSafe.
From Verif Require Import RefFrame NoHint Falter FalterFacts ExData PropsFrame PropsSafe PropsRound PropsSame PropsSession PropsClient.
Import ListNotations.
Open Scope N_scope.

(** Sources whose failure is for good are the special case all other properties are about. *)
Theorem C75_for_good : forall S (PB : parsebuf S) mo fin cap mem p l a,
  source PB mo fin cap mem p l a -> faltering PB mo cap mem p (for_good l fin) a.
Proof.
  intros S PB mo fin cap mem p l a (rep & HC & Hr & Hw).
  exists (fun s f a => rep s (fst (f O)) a /\ forall n, f n = for_good (fst (f O)) fin n), (for_good l fin).
  split; [|split].
  - constructor.
    + intros s f b [H E] Hn. rewrite Hn in H. destruct (ct_empty HC _ _ H) as (s' & Ec & Hr').
      exists s'. split; [rewrite E; exact Ec|]. unfold next. rewrite (E 1%nat). split; [exact Hr'|].
      intros n. rewrite E. now destruct n.
    + intros s f b [H E] Hn. destruct (ct_chunk HC _ _ _ H Hn) as (c & s' & Ec & Hr' & Hc & Hp & Hok & Ha).
      exists c, s'. split; [exact Ec|]. split; [split; assumption|]. split; [exact Hc|]. split; [exact Hp|].
      split; [exact Hok|]. intros n Hle. destruct (Ha n Hle) as (s2 & Ea & Hr2). exists s2. split; [exact Ea|].
      split; [exact Hr2|]. intros [|k]; cbn [onward fst for_good]; rewrite E; reflexivity.
    + intros s f b h [H _]. exact (ct_hint HC _ _ _ _ H).
    + intros s f b [H _]. exact (ct_nohint HC _ _ _ H).
  - split; [exact Hr|]. reflexivity.
  - intros n. split; [reflexivity|]. destruct n; [exact Hw|]. split; [constructor|reflexivity].
Qed.

(** A [BufReader] over a reader whose calls give bytes, none, or fail. *)
Definition given (rs : list read_call) : list N :=
  concat (map (fun r => match r with Gives d => d | Fails _ _ => [] end) rs).

Theorem C75_trickle : forall b rs c cap mem, 16384 <= cap -> wf (b ++ given rs) ->
  faltering trickle_buf NoExt cap mem (new_parser (mkTrickle b rs) c) (pieces (ahead b rs)) 0.
Proof.
  intros b rs c cap mem Hc Hb. exists trickle_rep, (pieces (ahead b rs)). split; [now apply trickle_falters|].
  split; [intros n; reflexivity|]. intros n. split; [reflexivity|]. revert b n Hb.
  induction rs as [|[[|y d]|code e] rs IH]; intros b n Hb; cbn [ahead].
  - rewrite app_nil_r in Hb. destruct n as [|[|n]]; [exact Hb|split; [constructor|reflexivity]..].
  - destruct n as [|n]; [exact (wf_app_l _ _ Hb)|]. exact (IH [] n (wf_app_r _ _ Hb)).
  - apply IH. rewrite <- app_assoc. exact Hb.
  - destruct n as [|n]; [exact (wf_app_l _ _ Hb)|]. exact (IH [] n (wf_app_r _ _ Hb)).
Qed.

(** A record: the outcome is the one from an ordinary source which holds the bytes up to the
    next failure and ends with it.  Either the failure is still to come, or it is the outcome. *)
Theorem C75_record : forall pl S (PB : parsebuf S) mo cap mem p f a,
  pl_ok pl -> cap <= isize_max pl -> faltering PB mo cap mem p f a ->
  exists r p', gives pl PB p r p' /\
    ((exists n, goes_on PB mo cap mem p f a n p') \/ r = inl (snd (f O)) /\ passes PB mo cap mem p f a p') /\
    exists S2 (PB2 : parsebuf S2) q q', source PB2 mo (snd (f O)) cap mem q (fst (f O)) a /\
      p_cfg q = p_cfg p /\ p_off q = p_off p /\ gives pl PB2 q r q' /\ p_off q' = p_off p'.
Proof.
  intros pl S PB mo cap mem p f a Hpl Hcap Hp.
  destruct (record_both pl S PB mo cap mem p f a Hpl Hcap Hp) as (rep & r & p' & k & HC & Hr & Hw & G & G' & Hk & _).
  exists r, p'. split; [exact G|]. split; [destruct k; [now right|now left]|].
  exists _, (stick PB), (stuck p None), (stuck p' k). split; [exists (stick_rep rep (snd (f O)) (next f)); auto|].
  repeat split. exact G'.
Qed.

(** The failure is reported for records that are cut, and for no other: the bytes up to the
    failure are fewer than a header, or fewer than the header says.  They are lost. *)
Theorem C75_inside : forall pl S (PB : parsebuf S) mo cap mem p f a,
  let o := order_of pl (c_endian (p_cfg p)) in
  pl_ok pl -> cap <= isize_max pl -> faltering PB mo cap mem p f a ->
  len (fst (f O)) < 8 \/ (exists t m size rest, t < 2 ^ 32 /\ m < 2 ^ 16 /\ size < 2 ^ 16 /\ 8 + len rest < size /\
    fst (f O) = w_header o t m size ++ rest) ->
  exists p', gives pl PB p (inl (snd (f O))) p' /\ passes PB mo cap mem p f a p'.
Proof.
  intros pl S PB mo cap mem p f a o Hpl Hcap Hp Hcut.
  destruct (record_both pl S PB mo cap mem p f a Hpl Hcap Hp) as (rep & r & p' & k & HC & Hr & Hw & G & _ & Hk & x & Ex & Hx).
  assert (K : exists p1, collect pl (stick PB) (stuck p None) = (Err (snd (f O)), stuck p1 (Some (snd (f O))))).
  { destruct Hcut as [Hl|(t & m & size & rest & Ht & Hm & Hs & Hlt & El)].
    - eapply collect_short; eassumption.
    - eapply collect_cut; [exact HC|exact Hr|exact Hw|exact Ht|exact Hm|exact Hs|exact Hlt|exact El]. }
  destruct K as (p1 & E1). rewrite E1 in Ex. assert (k = Some (snd (f O))) as -> by (injection Ex; congruence).
  destruct Hk as [-> Hk]. exists p'. split; assumption.
Qed.

(** A complete record is taken as a whole, whatever it holds, and the failure is not noticed. *)
Theorem C75_whole : forall pl S (PB : parsebuf S) mo cap mem p f a t m size rest,
  let o := order_of pl (c_endian (p_cfg p)) in
  pl_ok pl -> cap <= isize_max pl -> faltering PB mo cap mem p f a ->
  t < 2 ^ 32 -> m < 2 ^ 16 -> 8 <= size < 2 ^ 16 -> size <= 8 + len rest -> fst (f O) = w_header o t m size ++ rest ->
  exists r p', gives pl PB p r p' /\ goes_on PB mo cap mem p f a size p'.
Proof.
  intros pl S PB mo cap mem p f a t m size rest o Hpl Hcap Hp Ht Hm Hs Hle El.
  destruct (record_both pl S PB mo cap mem p f a Hpl Hcap Hp) as (rep & r & p' & k & HC & Hr & Hw & G & _ & Hk & x & Ex & Hx).
  destruct (collect_whole pl PB mo cap mem p f a rep HC Hr Hw t m size rest Ht Hm Hs Hle El) as (x1 & p1 & E1 & Ho).
  rewrite E1 in Ex. assert (k = None) as -> by (injection Ex; congruence). exists r, p'. split; [exact G|].
  destruct Hk as (n & Hn & Hc & Hon & Hf). assert (p_off p1 = p_off p') by (injection Ex; congruence).
  assert (n = size) as -> by lia. repeat split; assumption.
Qed.

Theorem C75_small : forall pl S (PB : parsebuf S) mo cap mem p f a t m size rest,
  let o := order_of pl (c_endian (p_cfg p)) in
  pl_ok pl -> cap <= isize_max pl -> faltering PB mo cap mem p f a ->
  t < 2 ^ 32 -> m < 2 ^ 16 -> size < 8 -> fst (f O) = w_header o t m size ++ rest ->
  exists p', gives pl PB p (inl (mkError KInvalidRecord (Some (SrcMsg MsgHeaderTooSmall)))) p' /\
    goes_on PB mo cap mem p f a 8 p'.
Proof.
  intros pl S PB mo cap mem p f a t m size rest o Hpl Hcap Hp Ht Hm Hs El.
  destruct (record_both pl S PB mo cap mem p f a Hpl Hcap Hp) as (rep & r & p' & k & HC & Hr & Hw & G & _ & Hk & x & Ex & Hx).
  destruct (collect_small pl PB mo cap mem p f a rep HC Hr Hw t m size rest Ht Hm Hs El) as (p1 & E1 & Ho).
  rewrite E1 in Ex. assert (k = None) as -> by (injection Ex; congruence). exists p'.
  assert (p_off p1 = p_off p') by (injection Ex; congruence). injection Ex as <- _ _ _ _. destruct r as [e|y]; [|discriminate].
  injection Hx as <-. split; [exact G|].
  destruct Hk as (n & Hn & Hc & Hon & Hf). assert (n = 8) as -> by lia. repeat split; assumption.
Qed.

(** Full statement: every record arrives, and every failure is reported once.  Here the failures
    are between records; [item_ok] leaves out the same cases as C21. *)
Definition run_bytes (o : order) (w : settings) (r : list item * perror) : list N * perror :=
  (concat (map (encode o w) (fst r)), snd r).

Definition run_told {O : Type} (V : visitor O) (x : (list item * perror) * list (body cow)) : list (out O) :=
  map (asked V) (combine (fst (fst x)) (snd x)) ++ [Err (snd (fst x))].

Theorem C75_between_partial : forall pl S (PB : parsebuf S) mo cap mem w O (V : visitor O) runs p a,
  let o := order_of pl (c_endian (p_cfg p)) in
  let is := concat (map fst runs) in
  pl_ok pl -> cap <= isize_max pl -> configured (p_cfg p) w -> Forall (item_ok (pl_host pl) o w mo) is ->
  stream_lends pl mo (p_cfg p) o w a is ->
  faltering PB mo cap mem p (pieces (map (run_bytes o w) runs)) a ->
  exists bss, map (map view_body) bss = map (fun r => map (fun i => expected (i_body i)) (fst r)) runs /\
    visits pl PB V (length is + length runs) p = concat (map (run_told V) (combine runs bss)).
Proof.
  intros pl S PB mo cap mem w O V runs.
  induction runs as [|[is e] runs IH]; intros p a o all Hpl Hcap Hcf Hok Hl Hp; [now exists []|].
  revert p a o all Hcf Hok Hl Hp. induction is as [|i is IHi]; intros p a o all Hcf Hok Hl Hp.
  - destruct (C75_inside pl S PB mo cap mem p _ a Hpl Hcap Hp) as (p' & G & Hc & _ & Hf); [now left|].
    cbn [map run_bytes concat fst snd len length] in *. change (len []) with 0 in Hf. rewrite N.add_0_r in Hf.
    destruct (IH p' a) as (bss & Ev & Et); try (rewrite Hc); try assumption.
    exists ([] :: bss). split; [cbn [map]; now rewrite Ev|].
    unfold all. cbn [map concat fst app length] in *. rewrite <- plus_n_Sm. cbn [visits]. rewrite G. cbn [combine map concat run_told fst snd app].
    now rewrite Et.
  - unfold all in Hok, Hl. cbn [map concat fst app] in Hok, Hl.
    inversion Hok as [|? ? (H1 & H2 & H3 & H4 & H5) Hok']; subst. destruct Hl as [Hl1 Hl2].
    set (f := pieces (map (run_bytes o w) ((i :: is, e) :: runs))) in *.
    assert (E0 : fst (f 0%nat) = encode o w i ++ concat (map (encode o w) is)) by reflexivity.
    destruct (record_both pl S PB mo cap mem p f a Hpl Hcap Hp) as (rep & r & p' & k & HC & Hr & Hw & G & G' & Hk & x & Ex & Hx).
    destruct (record_reads pl (stick PB) mo (snd (f 0%nat)) cap mem Hpl O V w (stuck p None) (i_misc i) (i_id i) (i_body i)
      (concat (map (encode o w) is)) a) as (b & q' & E & Hv & _ & Ha); try assumption.
    { exists (stick_rep rep (snd (f 0%nat)) (next f)). auto. }
    rewrite deliver_answer in E.
    assert (Ht : w_type (i_body i) < 2 ^ 32) by now apply w_type_small with (w := w) (m := i_misc i).
    unfold encode, w_record in E0. rewrite <- app_assoc in E0.
    destruct (C75_whole pl S PB mo cap mem p f a (w_type (i_body i)) (i_misc i) (len (encode o w i))
      (w_body o w (i_body i) ++ w_trailer o w (i_body i) (i_id i) ++ concat (map (encode o w) is)) Hpl Hcap Hp) as (r1 & p1 & G1 & Hg).
    { exact Ht. } { exact H1. }
    { unfold encode, w_record in *. rewrite !len_app, w_header_len in *. lia. }
    { unfold encode, w_record. rewrite !len_app, w_header_len. lia. }
    { rewrite E0. unfold encode, w_record. f_equal; [|now rewrite <- !app_assoc]. rewrite !len_app, w_header_len. reflexivity. }
    pose proof (G _ V) as Gv. rewrite (G1 _ V) in Gv. assert (p1 = p') as -> by congruence. clear Gv r1 G1.
    destruct Hg as (_ & Hc & _ & Hf).
    assert (Hf2 : faltering PB mo cap mem p' (pieces (map (run_bytes o w) ((is, e) :: runs))) (a + len (encode o w i))).
    { destruct Hf as (rep2 & g & F1 & F2 & F3). exists rep2, g. split; [exact F1|]. split; [exact F2|].
      intros [|n]; [|exact (F3 (Datatypes.S n))]. specialize (F3 0%nat). cbn [onward] in F3. rewrite E0 in F3.
      assert (D : drop (len (encode o w i)) (fst (f 0%nat)) = concat (map (encode o w) is)).
      { change (fst (f 0%nat)) with (encode o w i ++ concat (map (encode o w) is)). now apply drop_app_exact. }
      rewrite <- E0, D in F3. exact F3. }
    destruct (IHi p' (a + len (encode o w i))) as (bss & Ev & Et); try (rewrite Hc); try assumption.
    destruct bss as [|bs bss]; [discriminate|]. cbn [map fst] in Ev. injection Ev as Ev1 Ev2.
    exists ((b :: bs) :: bss). split; [cbn [map fst]; now rewrite Hv, Ev1, Ev2|].
    unfold all. cbn [map concat fst app length Nat.add visits] in *.
    rewrite (G _ V). cbn [combine map concat run_told fst snd app]. rewrite (G' _ V) in E.
    assert (Ea : match r with inl e0 => Err e0 | inr (b0, md) => answer V b0 md end = answer V b (told i)) by (injection E; auto).
    rewrite Ea. unfold asked at 1. cbn [fst snd]. f_equal. exact Et.
Qed.

(** Programs of the public API which stop at the first failure. *)
Theorem C75_program : forall pl A (m : prog A) S (PB : parsebuf S) mo cap mem p f a,
  pl_ok pl -> cap <= isize_max pl -> obedient m -> faltering PB mo cap mem p f a ->
  exists r p', match r with Ok _ | Err _ => True | Panic | Fuel => False end /\ run pl m S PB p = (r, p') /\
    ((exists n, goes_on PB mo cap mem p f a n p') \/ passes PB mo cap mem p f a p') /\
    (firm m -> (exists n, goes_on PB mo cap mem p f a n p') \/ r = Err (snd (f O))) /\
    exists S2 (PB2 : parsebuf S2) q q', source PB2 mo (snd (f O)) cap mem q (fst (f O)) a /\
      p_cfg q = p_cfg p /\ p_off q = p_off p /\ p_log q = p_log p /\
      run pl m S2 PB2 q = (r, q') /\ p_off q' = p_off p' /\ p_log q' = p_log p'.
Proof.
  intros pl A m S PB mo cap mem p f a Hpl Hcap Hm Hp. pose proof (record_cap pl Hpl) as H16.
  destruct (faltering_stuck PB mo cap mem cap (N.le_refl _) p f a Hp) as (rep & HF & HC & Hr & Hw).
  destruct (faltering_stuck PB mo cap mem (N.max cap 65536) ltac:(lia) p f a Hp) as (rep' & HF' & HC' & Hr' & Hw').
  pose proof (run_halts pl Hpl A m _ (stick PB) mo _ _ mem _ a HC' ltac:(lia) ltac:(lia)) as Hh.
  destruct (follows_steps PB mo cap mem true A _ _ p f a rep' _ (follows_obedient pl S PB A m Hm) HF' Hw' Hh Hr')
    as (r & p' & k & E & E' & Hd & _ & _ & G).
  exists r, p'. split; [exact Hd|]. split; [exact E|]. split; [destruct k; [now right|now left]|]. split.
  - intros Hf. destruct (follows_steps PB mo cap mem false A _ _ p f a rep' _ (follows_firm pl S PB A m Hf) HF' Hw' Hh Hr')
      as (r2 & p2 & k2 & E2 & E2' & _ & Hk & _ & G2).
    rewrite E in E2. injection E2 as <- <-. destruct (Hk eq_refl) as [-> | ->]; auto.
  - exists _, (stick PB), (stuck p None), (stuck p' k). split; [exists (stick_rep rep (snd (f O)) (next f)); auto|].
    repeat split. exact E'.
Qed.

(** Any program at all, also one that tries again after a failure, ends without a panic, and
    reserves no more than for an ordinary source; what it did not take is still to come. *)
Theorem C75_ends : forall pl A (m : prog A) S (PB : parsebuf S) mo cap mem p f a,
  pl_ok pl -> cap <= isize_max pl -> faltering PB mo cap mem p f a ->
  exists r p' g a' new, match r with Ok _ | Err _ => True | Panic | Fuel => False end /\ run pl m S PB p = (r, p') /\
    faltering PB mo cap mem p' g a' /\ rest_of f g /\ p_cfg p' = p_cfg p /\
    p_log p' = new ++ p_log p /\ Forall (fun k => k <= N.max cap 65536) new.
Proof.
  intros pl A m S PB mo cap mem p f a Hpl Hcap Hp. pose proof (record_cap pl Hpl).
  destruct (run_copes pl Hpl A m S PB mo cap (N.max cap 65536) mem ltac:(lia) ltac:(lia) ltac:(lia) p f a Hp)
    as (r & p' & g & a' & E & Hd & Hf & Hr & Hc & new & El & Hn).
  exists r, p', g, a', new. auto 10.
Qed.

(** The record cannot be read again: the bytes that came before the failure are lost, and the
    next call takes the rest of the record for a record.  Here a LOST record whose body looks
    like an unknown record, and whose header came with a [read] of its own; the second time, the
    [read] after that is interrupted ([EINTR]). *)
Definition torn_body : list N := w_header LE 99 0 16 ++ w64 LE 5.
Definition torn : list N := w_header LE 2 0 24.

Theorem C75_retry_refuted :
  results pl64 trickle_buf 2 (new_parser (mkTrickle [] [Gives torn; Gives torn_body]) ex_cfg0) =
    [Ok (RBody (BLost (mkLost (99 + 16 * 2 ^ 48) 5))); Err eof_error] /\
  results pl64 trickle_buf 3 (new_parser (mkTrickle [] [Gives torn; Fails 4 false; Gives torn_body]) ex_cfg0) =
    [Err (io_error 4 false); Ok (RUnknown 99 (Owned (w64 LE 5))); Err eof_error].
Proof. split; vm_compute; reflexivity. Qed.

(** [obedient] is needed: [parse_rest] takes the end for success, and what is read after it comes
    from after the end if the source goes on. *)
Definition past_the_end : prog (list N * (perror + N)) :=
  (d <-- PRest ;;; x <-- PTry PU8 ;;; PRet (d, x))%prog.

Theorem C75_obedient_needed :
  fst (run pl64 past_the_end _ trickle_buf (new_parser (mkTrickle [] [Gives [1; 2]; Gives []; Gives [3]]) ex_cfg0)) =
    Ok ([1; 2], inr 3) /\
  fst (run pl64 past_the_end _ bufreader_buf (reader_of [[1; 2]] ex_cfg0)) = Ok ([1; 2], inl eof_error).
Proof. split; vm_compute; reflexivity. Qed.

(** Three records; the first [read] after the first record is interrupted. *)
Definition ex_runs : list (list item * perror) :=
  [(firstn 1 ex_items, io_error 4 false); (skipn 1 ex_items, eof_error)].
Definition ex_reads : list read_call :=
  map Gives (cut 200 7 (fst (run_bytes LE ex_set (nth 0 ex_runs ([], eof_error))))) ++ [Fails 4 false] ++
  map Gives (cut 200 7 (fst (run_bytes LE ex_set (nth 1 ex_runs ([], eof_error))))).

Example C75_example :
  configured ex_cfg ex_set /\ Forall (item_ok LE LE ex_set NoExt) (concat (map fst ex_runs)) /\
  stream_lends pl64 NoExt ex_cfg LE ex_set 0 (concat (map fst ex_runs)) /\
  faltering trickle_buf NoExt 16384 (fun _ => 0) (new_parser (mkTrickle [] ex_reads) ex_cfg)
    (pieces (map (run_bytes LE ex_set) ex_runs)) 0 /\
  map (fun r => match r with Ok x => Ok (view_record x) | Err e => Err e | Panic => Panic | Fuel => Fuel end)
    (results pl64 trickle_buf 5 (new_parser (mkTrickle [] ex_reads) ex_cfg)) =
    [ Ok (RBody (BLost (mkLost 7 9))); Err (io_error 4 false);
      Ok (RBody (BNamespaces (mkNamespaces 1 1 [mkNs 3 4; mkNs 5 6])));
      Ok (RUnknown 77 [1; 2; 3; 4; 5; 6; 7; 8]); Err eof_error ].
Proof.
  split; [repeat split|]. split; [|split; [|split]].
  - repeat first [right; reflexivity | constructor]; try discriminate; try (vm_compute; reflexivity).
  - repeat split; left; exact I.
  - replace (map (run_bytes LE ex_set) ex_runs) with (ahead [] ex_reads) by (vm_compute; reflexivity).
    apply C75_trickle; [lia|]. split; [vm_compute; repeat constructor|vm_compute; reflexivity].
  - vm_compute. reflexivity.
Qed.

Example C75_example_cut :
  faltering trickle_buf NoExt 16384 (fun _ => 0) (new_parser (mkTrickle [] [Gives torn; Fails 4 false; Gives torn_body]) ex_cfg0)
    (pieces [(torn, io_error 4 false); (torn_body, eof_error)]) 0 /\
  torn = w_header LE 2 0 24 ++ [] /\ 8 + len (@nil N) < 24 /\ torn_body = w_header LE 99 0 16 ++ w64 LE 5 /\
  16 <= 8 + len (w64 LE 5).
Proof.
  split; [|repeat split; vm_compute; congruence].
  change [(torn, io_error 4 false); (torn_body, eof_error)] with (ahead [] [Gives torn; Fails 4 false; Gives torn_body]).
  apply C75_trickle; [lia|]. split; [vm_compute; repeat constructor|vm_compute; reflexivity].
Qed.

Example C75_example_program :
  firm custom_example /\ obedient custom_example /\ obedient (PThen PU8 (fun _ => PRest)) /\ ~ obedient past_the_end /\
  fst (run pl64 custom_example _ trickle_buf (new_parser (mkTrickle (take 20 doc_bytes) [Fails 4 false; Gives (drop 20 doc_bytes)])
    (config_default Little))) = Err (io_error 4 false).
Proof.
  split; [cbn; intuition|]. split; [cbn; intuition|]. split; [cbn; intuition|]. split; [|vm_compute; reflexivity].
  intros [[H _]|[_ H]]; [exact H|exact (H [])].
Qed.

Print Assumptions C75_for_good.
Print Assumptions C75_trickle.
Print Assumptions C75_record.
Print Assumptions C75_inside.
Print Assumptions C75_whole.
Print Assumptions C75_small.
Print Assumptions C75_between_partial.
Print Assumptions C75_program.
Print Assumptions C75_ends.
Print Assumptions C75_retry_refuted.
Print Assumptions C75_obedient_needed.
