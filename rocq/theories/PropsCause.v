(** Theorems: errors and their causes (C91). *)
From Coq Require Import String NArith List Bool Lia.
From Verif Require Import Base Types Platform Config Buf Parser Contract Records Sample Record Show Fmt.
From Verif Require Import Text Attr Spec ExData.
From Verif Require Import Safe PropsSafe.
Import ListNotations.
Open Scope N_scope.

(** [t] can be read somewhere in [l]. *)
Definition within (t l : text) : Prop := exists before behind, l = before ++ t ++ behind.

(** What the documentation of [std::error::Error::source] asks of an error with
    the text [shown] and the cause [cause]: the cause is handed out, or its text is
    in that of the error, but not both. *)
Definition told_once (cause : option text) (shown : text) : Prop :=
  forall t, cause = Some t -> t <> [] -> ~ within t shown.

(** [ParseError::source], src/error.rs:138-145, as the text of what it returns. *)
Definition cause_text (src : error_source -> text) (e : perror) : option text :=
  option_map src (e_source e).

(** What programs print for an error and its causes, one behind the other with a
    colon between; the causes the crate makes have none themselves
    ([CustomMessageError], src/error.rs:201). *)
Definition report (src : error_source -> text) (e : perror) : text :=
  show_error src e ++ match e_source e with Some s => txt ": " ++ src s | None => [] end.

(** An error without a cause is told once, and its report is its text. *)
Theorem C91_once_partial : forall src e, e_source e = None ->
  told_once (cause_text src e) (show_error src e) /\ report src e = show_error src e.
Proof.
  intros src e H. unfold told_once, cause_text, report. rewrite H.
  split; [intros t E; discriminate E|apply app_nil_r].
Qed.

(** An error with a cause never is: the text of the cause ends that of the error
    and comes again in a report. *)
Theorem C91_twice : forall src e s, e_source e = Some s ->
  exists before, show_error src e = before ++ src s /\
    report src e = before ++ src s ++ txt ": " ++ src s.
Proof.
  intros src e s H.
  assert (K : exists before, show_error src e = before ++ src s).
  { unfold show_error. rewrite H. eexists. rewrite app_assoc. reflexivity. }
  destruct K as [before K]. exists before. split; [exact K|].
  unfold report. rewrite K, H, <- app_assoc. reflexivity.
Qed.

(** So it is exactly the errors without a cause (or with one that has no text) that
    keep the rule. *)
Theorem C91_once_iff : forall src e,
  told_once (cause_text src e) (show_error src e) <->
  forall s, e_source e = Some s -> src s = [].
Proof.
  intros src e. split.
  - intros H s E. destruct (src s) as [|b t] eqn:T; [reflexivity|exfalso].
    apply (H (b :: t)).
    + unfold cause_text. rewrite E. cbn [option_map]. now rewrite T.
    + discriminate.
    + destruct (C91_twice src e s E) as (before & K & _). exists before, [].
      rewrite app_nil_r, <- T. exact K.
  - intros H t E N. unfold cause_text in E. destruct (e_source e) as [s|]; [|discriminate E].
    injection E as <-. exfalso. apply N. now apply H.
Qed.

Lemma fine_once : forall other e, kind_fine eof_error e ->
  (told_once (cause_text (show_source other) e) (show_error (show_source other) e)
   <-> e_kind e = KEof).
Proof.
  intros other e (_ & H & M). rewrite C91_once_iff. split.
  - intros E. destruct (e_kind e) eqn:K; [reflexivity|..]; exfalso;
      (assert (N : e <> eof_error) by (intros ->; discriminate K));
      destruct (M N N) as (m & Em & _); specialize (E _ Em);
      destruct m; cbn [show_source message_text] in E; try discriminate E;
      apply app_eq_nil in E; destruct E as [_ E]; discriminate E.
  - intros K s Es. destruct (H K) as [->| ->]; discriminate Es.
Qed.

(** Which errors of the parsers these are, for a source that ends as slices and
    [Cow]s do: running out of data keeps the rule, and every other error breaks it,
    for its cause is a message of the crate. *)
Theorem C91_parsers : forall pl S (PB : parsebuf S) mo cap mem p l a A (m : M S A) e other,
  cap <= isize_max pl -> source PB mo eof_error cap mem p l a ->
  public pl PB A m -> fst (m p) = Err e ->
  (told_once (cause_text (show_source other) e) (show_error (show_source other) e)
   <-> e_kind e = KEof).
Proof.
  intros pl S PB mo cap mem p l a A m e other Hcap Hs Hm He. apply fine_once.
  exact (C41_parsers pl S PB mo eof_error cap mem p l a A m e Hcap Hs Hm He).
Qed.

Theorem C91_attr : forall pl S (PB : parsebuf S) mo cap mem p l a e other,
  pl_ok pl -> source PB mo eof_error cap mem p l a ->
  fst (parse_attr pl PB p) = Err e ->
  (told_once (cause_text (show_source other) e) (show_error (show_source other) e)
   <-> e_kind e = KEof).
Proof.
  intros pl S PB mo cap mem p l a e other Hpl Hs He. apply fine_once.
  exact (C41_attr pl S PB mo eof_error cap mem p l a e Hpl Hs He).
Qed.

Theorem C91_record : forall pl S (PB : parsebuf S) mo cap mem p l a e other,
  pl_ok pl -> source PB mo eof_error cap mem p l a ->
  fst (parse_record_enum pl PB p) = Err e ->
  (told_once (cause_text (show_source other) e) (show_error (show_source other) e)
   <-> e_kind e = KEof).
Proof.
  intros pl S PB mo cap mem p l a e other Hpl Hs He. apply fine_once.
  exact (C41_record pl S PB mo eof_error cap mem p l a e Hpl Hs He).
Qed.

(** A source whose end has a cause, as that of a [Read] has, passes it on: then
    running out of data is told twice too. *)
Theorem C91_reader_refuted : ~ forall other : error_source -> text,
  told_once (cause_text other (io_error 5 true)) (show_error other (io_error 5 true)).
Proof.
  intros H. specialize (H (fun _ => [33])). rewrite C91_once_iff in H.
  discriminate (H _ eq_refl).
Qed.

(** The rule for all errors is false. *)
Theorem C91_refuted : ~ forall other e,
  told_once (cause_text (show_source other) e) (show_error (show_source other) e).
Proof.
  intros H. specialize (H (fun _ => []) (custom_error KInvalidRecord MsgHeaderTooSmall)).
  rewrite C91_once_iff in H. discriminate (H _ eq_refl).
Qed.

(** A header whose size is too small for a record, and one cut short: the text of
    each error and its report. *)
Definition said {A : Type} (r : out A) : option (text * text) :=
  match r with
  | Err e => Some (show_error (show_source (fun _ => [])) e, report (show_source (fun _ => [])) e)
  | _ => None
  end.

Example C91_example :
  said (fst (parse_record_enum pl64 slice_buf (on_slice 0 [2; 0; 0; 0; 0; 0; 7; 0] ex_cfg)))
  = Some (txt "invalid recordheader size was too small to be valid",
          txt "invalid recordheader size was too small to be valid: header size was too small to be valid") /\
  said (fst (parse_record_enum pl64 slice_buf (on_slice 0 [2; 0; 0; 0; 0; 0; 16] ex_cfg)))
  = Some (txt "unexpected EOF during parsing", txt "unexpected EOF during parsing") /\
  source slice_buf Whole eof_error (2 ^ 63 - 1) (memory_of 0 [2; 0; 0; 0; 0; 0; 7; 0])
    (on_slice 0 [2; 0; 0; 0; 0; 0; 7; 0] ex_cfg)
    [2; 0; 0; 0; 0; 0; 7; 0] 0.
Proof.
  split; [vm_compute; reflexivity|]. split; [vm_compute; reflexivity|].
  apply slice_source; [| | |apply memory_of_at]; try (vm_compute; congruence). repeat constructor.
Qed.

Print Assumptions C91_once_partial.
Print Assumptions C91_twice.
Print Assumptions C91_once_iff.
Print Assumptions C91_parsers.
Print Assumptions C91_attr.
Print Assumptions C91_record.
Print Assumptions C91_reader_refuted.
Print Assumptions C91_refuted.
