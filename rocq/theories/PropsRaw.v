(** C79, C80: the unsafe code of src/parse.rs and src/util/fmt.rs. *)
From Coq Require Import NArith List Bool Lia.
From Verif Require Import Base BaseFacts Types Platform Config Buf Parser Contract Refine Prims Instances Spec.
From Verif Require Import Fmt FmtFacts Raw RawFacts ExData.
Import ListNotations.
Open Scope N_scope.

(** ** C79: nothing is undefined.  For any [ParseBuf] whatever, also one that breaks its contract. *)

(** [parse_to_slice] stays within the memory it is given, and returns with all of it written. *)
Theorem C79_fill : forall S (PB : parsebuf S) p m,
  fst (raw_to_slice PB m p) <> Ok None /\
  forall m' p', raw_to_slice PB m p = (Ok (Some m'), p') ->
    length m' = length m /\ forall i c, nth_error m' i = Some c -> exists b, c = Some b.
Proof.
  intros S PB p m. pose proof (raw_to_slice_agree PB m) as H. split.
  - intros E. destruct (agree_ok _ _ _ _ _ _ _ H E) as (d & _ & G & _). discriminate.
  - intros m' p' E. destruct (agree_ok _ _ _ _ _ p (Some m') H) as (d & _ & G & L); [now rewrite E|].
    injection G as ->. split; [rewrite map_length; unfold len in L; lia|].
    intros i c Hi. rewrite nth_error_map in Hi. destruct (nth_error d i) as [b|]; [|discriminate].
    injection Hi as <-. now exists b.
Qed.

(** Byte strings, whatever capacity the allocator grants; arrays of bytes; arrays of elements of any type. *)
Theorem C79_defined : forall pl S (PB : parsebuf S) grant n A (E : elem A) p,
  (n <= grant n -> fst (raw_parse_bytes pl PB grant n p) <> Ok None) /\
  fst (raw_array PB n p) <> Ok None /\
  fst (raw_slice_direct pl PB E n p) <> Ok None.
Proof.
  intros pl S PB grant n A E p. split; [|split].
  - intros Hn H. destruct (agree_ok _ _ _ _ _ _ _ (raw_bytes_agree pl PB grant n Hn) H) as (d & _ & G). discriminate.
  - intros H. destruct (agree_ok _ _ _ _ _ _ _ (raw_array_agree PB n) H) as (d & _ & G). discriminate.
  - intros H. destruct (agree_ok _ _ _ _ _ _ _ (raw_slice_agree pl PB A E n) H) as (d & _ & G). discriminate.
Qed.

Lemma agree_same : forall S A (m : M S (option A)) (m' : M S A) p, agree (fun r a => r = Some a) m m' ->
  m p = (out_map Some (fst (m' p)), snd (m' p)).
Proof.
  intros S A m m' p H. destruct (H p) as [H1 H2]. destruct (m p) as [r q], (m' p) as [r' q']. cbn in *. subst q'.
  destruct r, r'; cbn; try contradiction; now subst.
Qed.

(** The results are those the other theorems are about, if the capacity is what was asked for. *)
Theorem C79_same : forall pl S (PB : parsebuf S) n A (E : elem A) p,
  raw_parse_bytes pl PB (fun n => n) n p = (out_map Some (fst (parse_bytes pl PB n p)), snd (parse_bytes pl PB n p)) /\
  raw_array PB n p = (out_map Some (fst (parse_array PB n p)), snd (parse_array PB n p)) /\
  raw_slice_direct pl PB E n p =
    (out_map Some (fst (parse_slice_direct pl PB E n p)), snd (parse_slice_direct pl PB E n p)).
Proof.
  intros pl S PB n A E p. split; [|split].
  - rewrite (agree_same _ _ _ _ p (raw_bytes_agree pl PB (fun n => n) n (N.le_refl n))). now rewrite granted_exact.
  - exact (agree_same _ _ _ _ p (raw_array_agree PB n)).
  - exact (agree_same _ _ _ _ p (raw_slice_agree pl PB A E n)).
Qed.

(** [from_utf8_unchecked] in src/util/fmt.rs:21 is given UTF-8. *)
Theorem C79_utf8 : forall data v e, from_utf8 (length data) 0 data = UErr v e ->
  v <= len data /\ exists cs, Forall scalar cs /\ take v data = flat_map encode cs.
Proof.
  intros data v e H. pose proof (from_utf8_spec (length data) 0 data (le_n _)) as G. rewrite H in G.
  destruct G as (cs & r & Hs & -> & _ & -> & _). rewrite N.add_0_l. split; [rewrite len_app; lia|].
  exists cs. split; [exact Hs|]. now apply take_app_exact.
Qed.

(** Four bytes out of three chunks, the last of which is longer; a copy that goes too far, memory that is not
    written and elements that are not aligned are noticed. *)
Example C79_example :
  let p := new_parser [Temporary [1]; Temporary [2; 3]; Temporary [4; 5; 6]] ex_cfg in
  fst (raw_to_slice chunklist_buf [None; None; None; None] p) = Ok (Some [Some 1; Some 2; Some 3; Some 4]) /\
  copy [4; 5; 6] [Some 1; Some 2; Some 3; None] 3 3 = None /\
  set_len (mkVec [Some 1; None] 0) 2 = None /\
  elements 8 8 (fun d => d) (4100, [1; 2; 3; 4; 5; 6; 7; 8]) = None /\
  let q := mkParser ex_cfg (mkCursor [Owned [4; 5; 6]; Owned [1; 2; 3]] 0 6) 0 [] in
  fst (raw_parse_bytes pl64 cursor_buf (fun n => n) 5 q) = Ok (Some (Owned [1; 2; 3; 4; 5])) /\
  fst (raw_parse_bytes pl64 cursor_buf (fun n => n + 1) 5 q) = Ok (Some (Owned [1; 2; 3; 4; 5])).
Proof. vm_compute. repeat split. Qed.

Example C79_example_slice :
  let d := [1; 0; 0; 0; 0; 0; 0; 0; 2; 0; 0; 0; 0; 0; 0; 0] in
  fst (raw_slice_direct pl64 slice_buf (elem_u64 pl64) 2 (on_slice 4096 d ex_cfg)) = Ok (Some (Some (4096, [1; 2]))) /\
  fst (raw_slice_direct pl64 slice_buf (elem_u64 pl64) 2 (on_slice 4100 d ex_cfg)) = Ok (Some None) /\
  fst (raw_slice_direct pl32 slice_buf (elem_u64 pl32) 0 (on_slice 4097 d ex_cfg)) = Ok (Some (Some (4097, []))).
Proof. vm_compute. repeat split. Qed.

(** ** C80: only what was asked for.

    Full statement: for every [grant] with [n <= grant n], [parse_bytes n] gives and takes what it does when the
    capacity is [n].  It fills all the capacity granted instead of the first [n] bytes of it. *)

(** It holds when the capacity is [n], when the source does not say how much is left, and for data which are lent. *)
Theorem C80_capacity_partial : forall pl S (PB : parsebuf S) grant n p,
  n <= grant n ->
  grant n = n \/ (forall s, pb_hint PB s = None) \/
  (exists fin cap mem l a, source PB Whole fin cap mem p l a /\ n <= len l) ->
  raw_parse_bytes pl PB grant n p = (out_map Some (fst (parse_bytes pl PB n p)), snd (parse_bytes pl PB n p)).
Proof.
  intros pl S PB grant n p Hn H. rewrite (agree_same _ _ _ _ p (raw_bytes_agree pl PB grant n Hn)).
  cut (bytes_granted pl PB (grant n) n p = parse_bytes pl PB n p); [now intros ->|].
  destruct H as [-> |[H|(fin & cap & mem & l & a & (rep & HC & Hr & Hw) & Hl)]].
  - apply granted_exact.
  - unfold bytes_granted, parse_bytes, bind.
    destruct (parse_bytes_direct PB n p) as [[[[x d]|]|e| |] p1]; try reflexivity.
    unfold m_hint. now rewrite H.
  - pose proof (bytes_direct_spec PB Whole fin cap mem rep a HC n p l 0) as G. rewrite N.add_0_r in G.
    specialize (G Hr Hw). unfold bytes_granted, parse_bytes, bind. destruct l as [|b l].
    + destruct G as (p1 & -> & _). reflexivity.
    + destruct G as ([[x d]|] & p1 & -> & G); [reflexivity|]. destruct G as [G _]. specialize (G eq_refl). lia.
Qed.

(** A source that says how much is left and does not lend its data: whenever more is granted, more is taken, and
    what is taken in excess is lost; if there is less than was granted, the call fails though all that was asked for
    is there. *)
Theorem C80_lost_refuted : forall pl S (PB : parsebuf S) fin cap mem p l a grant n h,
  cap <= isize_max pl -> source PB NoExt fin cap mem p l a -> l <> [] ->
  pb_hint PB (snd (pb_chunk PB (p_buf p))) = Some h -> n <= h -> n < grant n ->
  exists p', if len l <? grant n
    then raw_parse_bytes pl PB grant n p = (Err fin, p')
    else raw_parse_bytes pl PB grant n p = (Ok (Some (Owned (take n l))), p') /\
         after PB NoExt fin cap mem p (grant n) (drop (grant n) l) a p'.
Proof.
  intros pl S PB fin cap mem p l a grant n h Hcap (rep & HC & Hr & Hw) Hne Hh Hn Hg.
  rewrite (agree_same _ _ _ _ p (raw_bytes_agree pl PB grant n (N.lt_le_incl _ _ Hg))).
  pose proof (bytes_direct_spec PB NoExt fin cap mem rep a HC n p l 0) as G. rewrite N.add_0_r in G.
  specialize (G Hr Hw). destruct l as [|b l]; [congruence|].
  destruct G as (r & p1 & E & G). destruct r as [[x d]|]; [now destruct G as (_ & _ & _ & [] & _)|].
  destruct G as [_ Hs]. unfold bytes_granted. rewrite (bind_eq _ _ _ _ _ _ _ E).
  assert (Eh : pb_hint PB (p_buf p1) = Some h).
  { unfold parse_bytes_direct, bind, m_chunk in E. destruct (pb_chunk PB (p_buf p)) as [[c|e| |] s] eqn:Ec; try discriminate.
    cbn in Hh. destruct c as [d|x d]; [injection E as <-; exact Hh|].
    destruct (ct_chunk HC _ _ _ Hr ltac:(discriminate)) as (c' & s' & Ec' & _ & _ & _ & Hok & _).
    rewrite Ec in Ec'. injection Ec' as <- <-. now destruct Hok. }
  assert (Em : m_hint PB p1 = (Ok (Some h), p1)) by (unfold m_hint; now rewrite Eh).
  rewrite (bind_eq _ _ _ _ _ _ _ Em).
  cbv zeta. rewrite (proj2 (N.leb_le _ _) Hn). pose proof (st_rep _ _ _ _ _ _ _ _ _ Hs) as Hr1.
  pose proof (ct_hint HC _ _ _ _ Hr1 Eh) as Hc.
  destruct (alloc_ok pl cap rep a Hcap n p1 (b :: l) 0 Hr1 ltac:(lia)) as (p2 & E2 & Hs2).
  rewrite (bind_eq _ _ _ _ _ _ _ E2).
  pose proof (to_slice_spec PB NoExt fin cap mem rep a HC (grant n) p2 (b :: l) 0 (st_rep _ _ _ _ _ _ _ _ _ Hs2) Hw) as H.
  pose proof (step_trans _ _ _ _ _ _ _ _ _ _ _ _ Hs Hs2) as Hs3.
  unfold bind. destruct (parse_to_slice PB (grant n) p2) as [r p3]. exists p3.
  destruct (len (b :: l) <? grant n); destruct H as [-> H]; [reflexivity|].
  split; [cbn [fst snd out_map ret]; now rewrite take_take, N.min_l by lia|].
  eapply step_after; [exact HC|exact Hw|]. exact (step_trans _ _ _ _ _ _ _ _ _ _ _ _ Hs3 H).
Qed.

(** What a record read from a [BufReader] looks like to the parser of its body: six bytes of which five are asked for. *)
Definition body_of_six : parser cursor := mkParser ex_cfg (mkCursor [Owned [4; 5; 6]; Owned [1; 2; 3]] 0 6) 0 [].

Lemma six_source : source cursor_buf NoExt eof_error 6 (fun _ => 0) body_of_six [1; 2; 3; 4; 5; 6] 0.
Proof.
  exists (cursor_rep NoExt 6 (fun _ => 0)). split; [apply cursor_contract|]. split.
  - exists 0, [Owned [1; 2; 3]; Owned [4; 5; 6]]. cbn. repeat split; try discriminate; reflexivity.
  - split; [repeat constructor|reflexivity].
Qed.

Theorem C80_refuted : exists grant1 grant2 p1 p2,
  (forall n, n <= grant1 n /\ n <= grant2 n) /\
  source cursor_buf NoExt eof_error 6 (fun _ => 0) body_of_six [1; 2; 3; 4; 5; 6] 0 /\
  raw_parse_bytes pl64 cursor_buf (fun n => n) 5 body_of_six = (Ok (Some (Owned [1; 2; 3; 4; 5])), p1) /\
  fst (pb_chunk cursor_buf (p_buf p1)) = Ok (Temporary [6]) /\
  raw_parse_bytes pl64 cursor_buf grant1 5 body_of_six = (Ok (Some (Owned [1; 2; 3; 4; 5])), p2) /\
  fst (pb_chunk cursor_buf (p_buf p2)) = Err eof_error /\
  fst (raw_parse_bytes pl64 cursor_buf grant2 5 body_of_six) = Err eof_error.
Proof.
  exists (fun n => n + 1), (fun n => N.max n 8).
  eexists (mkParser ex_cfg (mkCursor [Owned [4; 5; 6]] 2 6) 5 [5]),
          (mkParser ex_cfg (mkCursor [] 0 6) 6 [5]).
  split; [intros n; split; lia|]. split; [exact six_source|]. vm_compute. repeat split.
Qed.

Example C80_example :
  source cursor_buf NoExt eof_error 6 (fun _ => 0) body_of_six [1; 2; 3; 4; 5; 6] 0 /\
  pb_hint cursor_buf (snd (pb_chunk cursor_buf (p_buf body_of_six))) = Some 6 /\ 5 <= 6 /\ 5 < 5 + 1 /\
  (forall s, pb_hint bufreader_buf s = None) /\
  source slice_buf Whole eof_error 6 (memory_of 4096 [1; 2; 3; 4; 5; 6]) (on_slice 4096 [1; 2; 3; 4; 5; 6] ex_cfg)
    [1; 2; 3; 4; 5; 6] 4096 /\ 5 <= len [1; 2; 3; 4; 5; 6].
Proof.
  split; [exact six_source|]. repeat split; try lia; try (cbn; lia).
  apply slice_source; [vm_compute; repeat constructor|reflexivity|apply N.le_refl|apply memory_of_at].
Qed.

Print Assumptions C79_fill.
Print Assumptions C79_defined.
Print Assumptions C79_same.
Print Assumptions C79_utf8.
Print Assumptions C80_capacity_partial.
Print Assumptions C80_lost_refuted.
Print Assumptions C80_refuted.
