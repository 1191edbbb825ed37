(** * Sources which break the rules of [ParseBuf]

    The documentation of [ParseBuf], src/parsebuf.rs:38-90, asks three things of
    an implementation: a chunk is never empty, the chunk does not change until
    [advance] is called, and [remaining_hint] is right.  Everything said about
    sources elsewhere assumes all three.  Here is what is left of them when only
    the first is kept, and that not even always. *)
From Coq Require Import NArith List.
From Verif Require Import Base BaseFacts Types Platform Config Buf Parser Contract.
Import ListNotations.
Open Scope N_scope.

(** A chunk a program can hand out: it has a byte in it, and what it says is in
    memory is in memory, as the type [&'p [u8]] has it. *)
Definition fair (mem : memory) (c : chunk) : Prop :=
  chunk_data c <> [] /\ bytes (chunk_data c) /\
  match c with
  | Temporary _ => True
  | External a d => mem_at mem a d
  end.

(** As long as the parser does as it should, [chunk] fails or has at least one
    byte to show, and [advance] by no more than was shown returns.  [I] are the
    states the source may be in.  A chunk may even be empty, as long as [advance]
    by nothing gets the source nearer, by [rank], to one that is not; there are
    never more than [B] empty ones in a row.  Nothing ties a chunk to the chunks
    before it, to the bytes [advance] was told were used, or to the hint. *)
Definition lively {S : Type} (PB : parsebuf S) (mem : memory) (I : S -> Prop)
  (rank : S -> N) (B : N) : Prop :=
  forall s, I s -> rank s <= B /\
  exists r s', pb_chunk PB s = (r, s') /\ I s' /\
  match r with
  | Ok c =>
      (fair mem c /\
       forall n, n <= len (chunk_data c) ->
       exists s'', pb_advance PB s' n = (Ok tt, s'') /\ I s'') \/
      (chunk_data c = [] /\
       exists s'', pb_advance PB s' 0 = (Ok tt, s'') /\ I s'' /\ rank s'' < rank s)
  | Err _ => True
  | _ => False
  end.

(** The source which hands out the chunks of a list and then fails with [fin]:
    it keeps all the rules. *)
Definition given (fin : perror) : parsebuf (list chunk) :=
  mkBuf (fun s => match s with [] => (Err fin, s) | c :: _ => (Ok c, s) end)
        (fun s n => (Ok tt, chunklist_drop n s)) (fun _ => None).

(** All the bytes of some chunks. *)
Definition joined (cs : list chunk) : list N := concat (map chunk_data cs).

(** [PB] with another [remaining_hint], which may look at the state. *)
Definition hinting {S : Type} (PB : parsebuf S) (h : S -> option N) : parsebuf S :=
  mkBuf (pb_chunk PB) (pb_advance PB) h.

(** [PB] with every chunk empty. *)
Definition hollow {S : Type} (PB : parsebuf S) : parsebuf S :=
  mkBuf (fun s => (Ok (Temporary []), s)) (pb_advance PB) (pb_hint PB).
