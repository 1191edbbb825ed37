(** C85: what the requirements on a [ParseBuf] are needed for. *)
From Coq Require Import NArith List Bool Lia.
From Verif Require Import Base BaseFacts Types Platform Config Buf Parser Contract Flat Refine.
From Verif Require Import Instances Records Sample Record Attr NoHint Wire Spec ExData PropsFrame PropsSafe WireAttr PropsAttr Rogue RogueFacts.
Import ListNotations.
Open Scope N_scope.

(** Chunks handed out one after the other are a source of their bytes. *)
Theorem C85_honest : forall fin mem cs c off log a, Forall (fair mem) cs -> len (joined cs) < 2 ^ 64 ->
  source (given fin) AnyExt fin 16384 mem (mkParser c cs off log) (joined cs) a.
Proof.
  intros fin mem cs c off log a Hf Hl. exists (chunklist_rep AnyExt mem).
  split; [now apply given_contract|]. split; [split; [now apply fair_list_ok|reflexivity]|].
  split; [now apply fair_bytes with mem|exact Hl].
Qed.

(** However a source misbehaves which does not show empty chunks for ever, what comes of a record is what comes of it from
    an honest source of at most 65535 bytes. *)
Theorem C85_record : forall pl S (PB : parsebuf S) mem I rank B O (V : visitor O) p,
  lively PB mem I rank B -> B < 2 ^ 48 -> I (p_buf p) ->
  exists cs fin, Forall (fair mem) cs /\ len (joined cs) <= 65535 /\
    let honest := parse_record pl (given fin) V (mkParser (p_cfg p) cs (p_off p) (p_log p)) in
    let real := parse_record pl PB V p in
    fst real = fst honest /\ p_off (snd real) = p_off (snd honest) /\ p_log (snd real) = p_log (snd honest) /\
    p_cfg (snd real) = p_cfg p /\ I (p_buf (snd real)).
Proof.
  intros pl S PB mem I rank B O V p HL HB Hp.
  exact (sim_same _ _ _ _ _ _ _ _ (sim_record pl PB mem I rank B HL HB O V) p Hp).
Qed.

(** The results of [k] calls of [parse_record], one after the other. *)
Fixpoint calls (pl : platform) {S O : Type} (PB : parsebuf S) (V : visitor O) (k : nat) (p : parser S)
  : list (out O) :=
  match k with
  | O => []
  | Datatypes.S k => fst (parse_record pl PB V p) :: calls pl PB V k (snd (parse_record pl PB V p))
  end.

(** However often it is called on such a source, [parse_record] returns: an error, or what the visitor answered. *)
Theorem C85_safe : forall pl S (PB : parsebuf S) mem I rank B O (V : visitor O) k p,
  pl_ok pl -> lively PB mem I rank B -> B < 2 ^ 48 -> I (p_buf p) ->
  Forall (fun r => (exists e, r = Err e) \/ (exists b md, r = answer V b md)) (calls pl PB V k p).
Proof.
  intros pl S PB mem I rank B O V k p Hpl HL HB; revert p; induction k as [|k IH]; intros p Hp; [constructor|].
  destruct (C85_record pl S PB mem I rank B O V p HL HB Hp) as (cs & fin & Hf & Hb & E & _ & _ & _ & HI).
  cbn [calls]. constructor; [|now apply IH].
  rewrite E. refine (proj1 (C04_record pl _ (given fin) AnyExt fin 16384 mem O V _ (joined cs) 0 Hpl _)).
  apply C85_honest; [exact Hf|lia].
Qed.

(** Memory is reserved within the same bound as from an honest source. *)
Theorem C85_reserved : forall pl S (PB : parsebuf S) mem I rank B O (V : visitor O) p,
  pl_ok pl -> lively PB mem I rank B -> B < 2 ^ 48 -> I (p_buf p) ->
  exists new, p_log (snd (parse_record pl PB V p)) = new ++ p_log p /\ Forall (fun n => n <= 65527) new.
Proof.
  intros pl S PB mem I rank B O V p Hpl HL HB Hp.
  destruct (C85_record pl S PB mem I rank B O V p HL HB Hp) as (cs & fin & Hf & Hb & _ & _ & E & _).
  rewrite E.
  refine (C32_record pl _ (given fin) AnyExt fin 16384 mem O V (mkParser (p_cfg p) cs (p_off p) (p_log p)) (joined cs) 0 Hpl _).
  apply C85_honest; [exact Hf|lia].
Qed.

(** The same of the metadata of a record. *)
Theorem C85_metadata : forall pl S (PB : parsebuf S) mem I rank B p,
  lively PB mem I rank B -> B < 2 ^ 48 -> I (p_buf p) ->
  exists cs fin, Forall (fair mem) cs /\ len (joined cs) <= 65535 /\
    let honest := parse_metadata pl (given fin) (mkParser (p_cfg p) cs (p_off p) (p_log p)) in
    let real := parse_metadata pl PB p in
    fst real = fst honest /\ p_off (snd real) = p_off (snd honest) /\ p_log (snd real) = p_log (snd honest) /\
    p_cfg (snd real) = p_cfg p /\ I (p_buf (snd real)).
Proof.
  intros pl S PB mem I rank B p HL HB Hp. exact (sim_same _ _ _ _ _ _ _ _ (sim_read_metadata pl PB mem I rank B HL HB) p Hp).
Qed.

(** And of a [perf_event_attr], which may claim to be of up to 2^32 bytes. *)
Theorem C85_attr : forall pl S (PB : parsebuf S) mem I rank B p,
  lively PB mem I rank B -> B < 2 ^ 31 -> I (p_buf p) ->
  exists cs fin, Forall (fair mem) cs /\ len (joined cs) <= 2 ^ 32 + 8 /\
    let honest := parse_attr pl (given fin) (mkParser (p_cfg p) cs (p_off p) (p_log p)) in
    let real := parse_attr pl PB p in
    fst real = fst honest /\ p_off (snd real) = p_off (snd honest) /\ p_log (snd real) = p_log (snd honest) /\
    p_cfg (snd real) = p_cfg p /\ I (p_buf (snd real)).
Proof.
  intros pl S PB mem I rank B p HL HB Hp.
  exact (sim_same _ _ _ _ _ _ _ _ (sim_attr pl PB mem I rank B HL ltac:(lia) HB) p Hp).
Qed.

(** Reading one comes to an end in the same ways, and reserves nothing. *)
Theorem C85_attr_safe : forall pl S (PB : parsebuf S) mem I rank B p,
  pl_ok pl -> lively PB mem I rank B -> B < 2 ^ 31 -> I (p_buf p) ->
  ends (fst (parse_attr pl PB p)) /\
  exists new, p_log (snd (parse_attr pl PB p)) = new ++ p_log p /\ Forall (fun n => n = 0) new.
Proof.
  intros pl S PB mem I rank B p Hpl HL HB Hp.
  destruct (C85_attr pl S PB mem I rank B p HL HB Hp) as (cs & fin & Hf & Hb & E & _ & El & _).
  assert (Hs : source (given fin) AnyExt fin 16384 mem (mkParser (p_cfg p) cs (p_off p) (p_log p)) (joined cs) 0)
    by (apply C85_honest; [exact Hf|lia]).
  rewrite E, El. split.
  - exact (proj1 (C04_attr pl _ (given fin) AnyExt fin 16384 mem _ (joined cs) 0 Hpl Hs)).
  - exact (C32_attr pl _ (given fin) AnyExt fin 16384 mem _ (joined cs) 0 Hpl Hs).
Qed.

(** Empty chunks leave nothing behind: a record's cursor has no empty piece, and no more pieces than bytes. *)
Theorem C85_pieces : forall S (PB : parsebuf S) mem I rank B n p q p',
  lively PB mem I rank B -> B < 2 ^ 48 -> n <= 65527 -> I (p_buf p) -> split_at PB n p = (Ok q, p') ->
  Forall (fun c => cow_list c <> []) (cu_chunks (p_buf q)) /\ len (cu_chunks (p_buf q)) <= n /\
  len (concat (map cow_list (cu_chunks (p_buf q)))) = n.
Proof.
  intros S PB mem I rank B n p q p' HL HB Hn Hp E.
  destruct (split_runs PB mem I rank B HL n p ltac:(nia) Hp) as (r & p2 & E2 & _ & cs & Hf & _ & Hr).
  rewrite E in E2. injection E2 as <- <-. destruct Hr as [-> Hj]. cbn [new_parser p_buf cu_chunks].
  destruct (cursor_pieces mem cs Hf) as (H1 & H2 & H3).
  split; [exact H1|]. rewrite H3, <- Hj. split; [exact H2|reflexivity].
Qed.

(** Records do not depend on the hint of their source, right or wrong. *)
Theorem C85_hint : forall pl S (PB : parsebuf S) h O (V : visitor O),
  parse_record pl (hinting PB h) V = parse_record pl PB V.
Proof.
  intros pl S PB h O V. rewrite (record_no_hint pl S PB), (record_no_hint pl S (hinting PB h)). reflexivity.
Qed.

(** An empty chunk is never got past: no record is ever returned, nor an error. *)
Theorem C85_empty : forall pl S (PB : parsebuf S) O (V : visitor O) p,
  (forall s, exists s', pb_advance PB s 0 = (Ok tt, s')) ->
  fst (parse_record pl (hollow PB) V p) = Fuel.
Proof.
  intros pl S PB O V p HA.
  assert (H : exists p', parse_to_slice (hollow PB) 4 p = (Fuel, p')).
  { unfold parse_to_slice. apply loop_forever with (J := fun x _ => fst x = 4); [|reflexivity].
    intros [n d] q Hn. cbn [fst] in Hn. subst n. unfold bind, m_chunk, m_advance, ret.
    change (4 =? 0) with false. cbn [hollow pb_chunk pb_advance chunk_data p_buf p_cfg p_off p_log].
    change (N.min (len []) 4) with 0. destruct (HA (p_buf q)) as (s' & ->).
    eexists _, _. split; [reflexivity|]. reflexivity. }
  destruct H as (p' & H). unfold parse_record, parse_header, parse_u32, parse_array, bind, m_chunk.
  cbn [hollow pb_chunk chunk_data]. change (len [] <? 4) with true. cbv iota.
  replace (mkParser (p_cfg p) (p_buf p) (p_off p) (p_log p)) with p by now destruct p.
  change (mkBuf (fun s => (Ok (Temporary []), s)) (pb_advance PB) (pb_hint PB)) with (hollow PB).
  rewrite H. reflexivity.
Qed.

(** The hint does matter to [parse_bytes]: with a wrong one it panics. *)
Theorem C85_hint_refuted :
  exists n p, lively (hinting (given eof_error) (fun _ => Some n)) (fun _ => 0) (Forall (fair (fun _ => 0))) (fun _ => 0) 0 /\
    Forall (fair (fun _ => 0)) (p_buf p) /\
    fst (parse_bytes pl64 (hinting (given eof_error) (fun _ => Some n)) n p) = Panic /\
    (exists e, fst (parse_bytes pl64 (given eof_error) n p) = Err e).
Proof.
  exists (2 ^ 63), (new_parser [Temporary [1]] ex_cfg).
  split; [exact (given_lively eof_error (fun _ => 0))|].
  split; [repeat constructor; discriminate|].
  split; [vm_compute; reflexivity|]. eexists. vm_compute. reflexivity.
Qed.

(** A source which shows something else whenever it is asked, and takes no notice of [advance]. *)
Definition fickle : parsebuf (list chunk) :=
  mkBuf (fun s => match s with [] => (Err eof_error, s) | c :: t => (Ok c, t) end)
        (fun s _ => (Ok tt, s)) (fun s => Some (2 ^ 64 - 1)).

Definition lent : memory := memory_of 4096 (take 16 (drop 8 ex_lost)).

Definition whims : list chunk :=
  [ Temporary []; Temporary [2; 0; 0]; Temporary [0; 9; 9];
    Temporary [0; 0; 77; 77; 77]; Temporary [40; 0; 8]; Temporary [];
    External 4096 (take 16 (drop 8 ex_lost)); External 0 []; External 7 []; Temporary [5];
    Temporary (drop 25 ex_lost ++ [1; 2; 3]) ].

(** Chunks it may show, and up to a hundred of them. *)
Definition whimsical (s : list chunk) : Prop :=
  Forall (fun c => fair lent c \/ chunk_data c = []) s /\ len s <= 100.

Example C85_example :
  lively fickle lent whimsical len 100 /\ whimsical whims /\
  fst (parse_record_enum pl64 fickle (new_parser whims ex_cfg)) =
    Ok (RBody (BLost (mkLost 7 9))) /\
  fst (parse_record_enum pl64 (given eof_error)
        (new_parser [Temporary [2; 0; 0; 0; 0; 0; 40; 0]; External 4096 (take 16 (drop 8 ex_lost));
                     Temporary [5]; Temporary (drop 25 ex_lost)] ex_cfg)) =
    Ok (RBody (BLost (mkLost 7 9))).
Proof.
  split.
  { intros s [Hs Hl]. split; [exact Hl|]. destruct Hs as [|c t Hc Ht].
    - exists (Err eof_error), []. repeat split; [constructor|discriminate].
    - assert (Hw : whimsical t) by (split; [exact Ht|rewrite len_cons in Hl; lia]).
      exists (Ok c), t. split; [reflexivity|]. split; [exact Hw|].
      destruct Hc as [Hc|Hc]; [left|right]; (split; [exact Hc|]).
      + intros n _. exists t. split; [reflexivity|exact Hw].
      + exists t. split; [reflexivity|]. split; [exact Hw|rewrite len_cons; lia]. }
  split.
  { split; [|discriminate]. unfold whims.
    repeat (apply Forall_cons; [first [right; reflexivity|left; repeat constructor; try discriminate; apply memory_of_at]|]).
    constructor. }
  split; vm_compute; reflexivity.
Qed.

Example C85_pieces_example :
  match split_at fickle 17 (new_parser (skipn 5 whims) ex_cfg) with
  | (Ok q, _) => cu_chunks (p_buf q) = [Owned [5]; Borrowed 4096 (take 16 (drop 8 ex_lost))]
  | _ => False
  end.
Proof. vm_compute. reflexivity. Qed.

Definition ex_attr_bytes : list N := w_attr LE ex_attr0 0 0 [] ++ [9; 9; 9; 9].

Example C85_attr_example :
  let s := [Temporary []; Temporary (take 3 ex_attr_bytes); Temporary []; Temporary (take 2 (drop 3 ex_attr_bytes));
            Temporary (take 4 (drop 4 ex_attr_bytes) ++ [7]); Temporary []; Temporary (take 30 (drop 8 ex_attr_bytes));
            Temporary (drop 38 ex_attr_bytes)] in
  whimsical s /\
  fst (parse_attr pl64 fickle (new_parser s ex_cfg0)) = Ok (attr_seen ex_attr0) /\
  fst (parse_metadata pl64 fickle (new_parser whims ex_cfg)) =
  fst (parse_metadata pl64 (given eof_error)
        (new_parser [Temporary [2; 0; 0; 0; 0; 0; 40; 0]; External 4096 (take 16 (drop 8 ex_lost));
                     Temporary [5]; Temporary (drop 25 ex_lost)] ex_cfg)).
Proof.
  cbv zeta. split.
  { split; [|discriminate].
    repeat (apply Forall_cons; [first [right; reflexivity|left; repeat constructor; try discriminate]|]). constructor. }
  split; vm_compute; reflexivity.
Qed.

Example C85_calls :
  calls pl64 fickle record_visitor 3 (new_parser (whims ++ [Temporary [7]]) ex_cfg) =
  [Ok (RBody (BLost (mkLost 7 9))); Err eof_error; Err eof_error].
Proof. vm_compute. reflexivity. Qed.

(** A source of empty chunks alone is none of those above. *)
Example C85_empty_example :
  (forall s, exists s', pb_advance (given eof_error) s 0 = (Ok tt, s')) /\
  forall (I : list chunk -> Prop) rank B, I [] -> ~ lively (hollow (given eof_error)) (fun _ => 0) I rank B.
Proof.
  split; [intros s; eexists; reflexivity|]. intros I rank B H0 H.
  destruct (H [] H0) as (_ & r & s & E & _ & Hr). injection E as <- <-.
  destruct Hr as [[(Hne & _) _]|(_ & s & E & _ & Hr)]; [now apply Hne|].
  cbn in E. injection E as <-. lia.
Qed.

Print Assumptions C85_honest.
Print Assumptions C85_record.
Print Assumptions C85_safe.
Print Assumptions C85_reserved.
Print Assumptions C85_metadata.
Print Assumptions C85_attr.
Print Assumptions C85_attr_safe.
Print Assumptions C85_pieces.
Print Assumptions C85_hint.
Print Assumptions C85_empty.
Print Assumptions C85_hint_refuted.
