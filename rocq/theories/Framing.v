(** How a byte string falls into records: by the sizes in the headers alone.

    Independent of the parser model. *)
From Coq Require Import NArith List Bool.
From Verif Require Import Base BaseFacts Platform.
Import ListNotations.
Open Scope N_scope.

(** The size field of a header (u16, at offset 6). *)
Definition size_of (o : order) (l : list N) : N := from_order o (take 2 (drop 6 l)).

(** What one call takes: as many bytes as the header says, the header at least. *)
Definition frame (o : order) (f : list N) : Prop := bytes f /\ len f = N.max 8 (size_of o f).

(** What is left when the data ends early. *)
Definition unfinished (o : order) (l : list N) : Prop := bytes l /\ (len l < 8 \/ len l < size_of o l).

(** The frames of a recording at [a], each read where it is. *)
Fixpoint placed {R : Type} (read : N -> list N -> R) (a : N) (fs : list (list N)) : list R :=
  match fs with
  | [] => []
  | f :: fs => read a f :: placed read (a + len f) fs
  end.

(** One byte of [f] changed. *)
Definition change (i : nat) (x : N) (f : list N) : list N := firstn i f ++ x :: skipn (S i) f.
