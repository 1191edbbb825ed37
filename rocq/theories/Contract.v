(** What an implementation of [ParseBuf] must do: the documentation of the trait
    (src/parsebuf.rs:69-109) as a predicate.

    A buffer state [s] stands for the bytes [l] still to be delivered, the first
    of which is (or would be) at an address congruent to [a] modulo 8:
    [rep s l a]. *)
From Coq Require Import NArith List.
From Verif Require Import Base Types Buf.
Import ListNotations.
Open Scope N_scope.

(** What kind of [External] chunks a buffer hands out:
    - [NoExt]: none, everything is [Temporary] (BufReader);
    - [Whole]: always one external chunk with everything that is left ([&[u8]]);
    - [Coh]: both kinds;
    - [AnyExt]: both kinds, with no constraint on addresses.
    But for [AnyExt], the address of an external chunk agrees modulo 8 with the
    position of its first byte (as in a wrapped ring buffer). *)
Inductive mode : Type := NoExt | Whole | Coh | AnyExt.

(** Memory that outlives the parser. *)
Definition memory : Type := N -> N.

(** [d] is stored at [a]. *)
Definition mem_at (m : memory) (a : N) (d : list N) : Prop :=
  forall i b, get i d = Some b -> m (a + i) = b.

Definition chunk_ok (mo : mode) (m : memory) (l : list N) (a : N) (c : chunk) : Prop :=
  match c with
  | Temporary _ => mo <> Whole
  | External x d =>
      mem_at m x d /\
      match mo with
      | NoExt => False
      | Whole => x mod 8 = a mod 8 /\ d = l
      | Coh => x mod 8 = a mod 8
      | AnyExt => True
      end
  end.

(** [fin] is the error given once nothing is left and [cap] bounds every
    [remaining_hint]; 16 KiB is what the crate assumes without one. *)
Record contract {S : Type} (PB : parsebuf S) (mo : mode) (fin : perror) (cap : N)
  (m : memory) (rep : S -> list N -> N -> Prop) : Prop := mkContract {
  ct_empty : forall s a, rep s [] a ->
    exists s', pb_chunk PB s = (Err fin, s') /\ rep s' [] a;
  ct_chunk : forall s l a, rep s l a -> l <> [] ->
    exists c s', pb_chunk PB s = (Ok c, s') /\ rep s' l a /\
      chunk_data c <> [] /\ (exists r, l = chunk_data c ++ r) /\
      chunk_ok mo m l a c /\
      forall n, n <= len (chunk_data c) ->
        exists s'', pb_advance PB s' n = (Ok tt, s'') /\ rep s'' (drop n l) (a + n);
  ct_hint : forall s l a h, rep s l a -> pb_hint PB s = Some h -> h <= cap;
  ct_nohint : forall s l a, rep s l a -> pb_hint PB s = None -> 16384 <= cap;
}.
Arguments ct_empty {S PB mo fin cap m rep} _.
Arguments ct_chunk {S PB mo fin cap m rep} _.
Arguments ct_hint {S PB mo fin cap m rep} _.
Arguments ct_nohint {S PB mo fin cap m rep} _.
