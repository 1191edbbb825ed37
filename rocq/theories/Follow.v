(** A recording that is still being written, read as it grows.

    Nothing here is in the crate: these are programs of a client, which keeps the bytes that
    have come and that no record has been read from, and makes a new [Parser]
    (src/parse.rs:156-162) for every record, since a [Parser] does not tell how far it is.
    [open pos l] is the parser it makes for the bytes [l] at [pos] of the recording, [V] the
    visitor it gives to [parse_record] (src/parse.rs:555-594). *)
From Coq Require Import NArith List Bool.
From Verif Require Import Base Types Platform Config Buf Parser Records Sample Record Framing.
Import ListNotations.
Open Scope N_scope.

Section Follow.
Context (pl : platform) {S : Type} (PB : parsebuf S) (open : N -> list N -> parser S) (o : order)
  {O : Type} (V : visitor O).

(** All of the next record is there. *)
Definition complete (l : list N) : bool := (8 <=? len l) && (size_of o l <=? len l).

(** Read records while they are complete.  At most [n]. *)
Fixpoint drain (n : nat) (pos : N) (l : list N) : list (out O) * (N * list N) :=
  match n with
  | Datatypes.O => ([], (pos, l))
  | Datatypes.S n =>
      if complete l then
        let k := N.max 8 (size_of o l) in
        let '(rs, st) := drain n (pos + k) (drop k l) in
        (fst (parse_record pl PB V (open pos l)) :: rs, st)
      else ([], (pos, l))
  end.

(** The same without a look at the sizes: read until an error of kind [Eof], and take up again
    from before that record when there is more. *)
Definition ended {A : Type} (r : out A) : bool :=
  match r with Err e => is_eof e | _ => false end.

Fixpoint drain_eof (n : nat) (pos : N) (l : list N) : list (out O) * (N * list N) :=
  match n with
  | Datatypes.O => ([], (pos, l))
  | Datatypes.S n =>
      let r := fst (parse_record pl PB V (open pos l)) in
      if ended r then ([], (pos, l))
      else
        let k := N.max 8 (size_of o l) in
        let '(rs, st) := drain_eof n (pos + k) (drop k l) in
        (r :: rs, st)
  end.
End Follow.

(** Bytes come in pieces; what is told after each. *)
Fixpoint follow {R : Type} (drain : nat -> N -> list N -> list R * (N * list N)) (pos : N) (l : list N)
  (ds : list (list N)) : list (list R) * (N * list N) :=
  match ds with
  | [] => ([], (pos, l))
  | d :: ds =>
      let '(rs, (pos, l)) := drain (length (l ++ d)) pos (l ++ d) in
      let '(rss, st) := follow drain pos l ds in
      (rs :: rss, st)
  end.
