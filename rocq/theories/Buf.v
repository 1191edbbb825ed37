(** [ParseBuf] and the implementations of it in the crate. *)
From Coq Require Import NArith List Bool.
From Verif Require Import Base Types.
Import ListNotations.
Open Scope N_scope.

(** The trait [ParseBuf], src/parsebuf.rs:83-109, over a buffer state [S]. *)
Record parsebuf (S : Type) : Type := mkBuf {
  pb_chunk : S -> out chunk * S;
  pb_advance : S -> N -> out unit * S;
  pb_hint : S -> option N;
}.
Arguments mkBuf {S} _ _ _.
Arguments pb_chunk {S} _ _.
Arguments pb_advance {S} _ _ _.
Arguments pb_hint {S} _ _.

(** * [&[u8]], src/parsebuf.rs:111-130 *)

Record slice : Type := mkSlice { sl_addr : N; sl_data : list N }.

Definition slice_chunk (s : slice) : out chunk * slice :=
  match sl_data s with
  | [] => (Err eof_error, s)
  | _ => (Ok (External (sl_addr s) (sl_data s)), s)
  end.

Definition slice_advance (s : slice) (n : N) : out unit * slice :=
  if len (sl_data s) <? n then (Panic, s)
  else (Ok tt, mkSlice (sl_addr s + n) (drop n (sl_data s))).

Definition slice_buf : parsebuf slice :=
  mkBuf slice_chunk slice_advance (fun s => Some (len (sl_data s))).

(** * [BufReader<R>], src/parsebuf.rs:134-153

    The state is what the BufReader has buffered, what each future [read] call
    of the underlying reader will return, and what happens after those: end of
    file ([None]) or an I/O error, repeated for ever.  [fill_buf] reads only
    when the buffer is empty. *)
Record bufreader : Type := mkReader {
  br_buf : list N;
  br_reads : list (list N);
  br_end : option (N * bool);
}.

Definition br_fill (s : bufreader) : out (list N) * bufreader :=
  match br_buf s with
  | _ :: _ => (Ok (br_buf s), s)
  | [] =>
      match br_reads s with
      | r :: rs => (Ok r, mkReader r rs (br_end s))
      | [] =>
          match br_end s with
          | None => (Ok [], s)
          | Some (code, ue) => (Err (io_error code ue), s)
          end
      end
  end.

Definition br_chunk (s : bufreader) : out chunk * bufreader :=
  match br_fill s with
  | (Ok [], s') => (Err eof_error, s')
  | (Ok d, s') => (Ok (Temporary d), s')
  | (Err e, s') => (Err e, s')
  | (Panic, s') => (Panic, s')
  | (Fuel, s') => (Fuel, s')
  end.

(** [BufReader::consume]: saturates at the end of the buffer. *)
Definition br_advance (s : bufreader) (n : N) : out unit * bufreader :=
  (Ok tt, mkReader (drop n (br_buf s)) (br_reads s) (br_end s)).

Definition bufreader_buf : parsebuf bufreader :=
  mkBuf br_chunk br_advance (fun _ => None).

(** * [ParseBufCursor], src/parsebuf.rs:155-251

    [cu_chunks] is in the order of the Rust vector: the next chunk is the last. *)
Record cursor : Type := mkCursor {
  cu_chunks : list (cow N);
  cu_offset : N;
  cu_len : N;
}.

(** [as_slice], src/parsebuf.rs:191-200. *)
Definition cursor_as_slice (c : cursor) : option slice :=
  match cu_chunks c with
  | [Borrowed a d] => Some (mkSlice a d)
  | _ => None
  end.

(** [advance_slow], src/parsebuf.rs:205-218.  The fuel is the number of chunks:
    each round pops one. *)
Fixpoint cursor_pop (fuel : nat) (chunks : list (cow N)) (off : N) : list (cow N) * N :=
  match fuel with
  | O => (chunks, off)
  | S f =>
      match split_last chunks with
      | None => (chunks, off)
      | Some (rest, c) =>
          if off <? len (cow_list c) then (chunks, off)
          else cursor_pop f rest (off - len (cow_list c))
      end
  end.

Definition cursor_advance_slow (c : cursor) : out unit * cursor :=
  let '(chunks, off) := cursor_pop (length (cu_chunks c)) (cu_chunks c) (cu_offset c) in
  let c' := mkCursor chunks off (cu_len c) in
  match chunks with
  | [] => if off =? 0 then (Ok tt, c') else (Panic, c')
  | _ => (Ok tt, c')
  end.

(** [chunk], src/parsebuf.rs:223-228; slicing past the end panics. *)
Definition cursor_chunk (c : cursor) : out chunk * cursor :=
  match split_last (cu_chunks c) with
  | None => (Err eof_error, c)
  | Some (_, d) =>
      if len (cow_list d) <? cu_offset c then (Panic, c)
      else match d with
           | Borrowed a l => (Ok (External (a + cu_offset c) (drop (cu_offset c) l)), c)
           | Owned l => (Ok (Temporary (drop (cu_offset c) l)), c)
           end
  end.

(** [advance], src/parsebuf.rs:231-245.  As in the source, the result of
    [len.checked_sub(count)] is only checked, not stored. *)
Definition cursor_advance (c : cursor) (n : N) : out unit * cursor :=
  let c1 := mkCursor (cu_chunks c) (cu_offset c + n) (cu_len c) in
  if cu_len c <? n then (Panic, c1)
  else match split_last (cu_chunks c1) with
       | Some (_, d) =>
           if cu_offset c1 <? len (cow_list d) then (Ok tt, c1)
           else cursor_advance_slow c1
       | None => cursor_advance_slow c1
       end.

(** [remaining_hint], src/parsebuf.rs:248-250. *)
Definition cursor_buf : parsebuf cursor :=
  mkBuf cursor_chunk cursor_advance (fun c => Some (cu_len c)).

(** * A buffer handing out a list of chunks one after the other

    Not part of the crate proper: the test helper [ChunkBuf],
    src/parsebuf.rs:298-320, generalised to both kinds of chunks.  Used for
    examples and to state what an arbitrary chunking is. *)
Definition chunklist_chunk (s : list chunk) : out chunk * list chunk :=
  match s with
  | [] => (Err eof_error, s)
  | c :: _ => (Ok c, s)
  end.

Definition chunk_drop (n : N) (c : chunk) : chunk :=
  match c with
  | Temporary d => Temporary (drop n d)
  | External a d => External (a + n) (drop n d)
  end.

Fixpoint chunklist_drop (n : N) (s : list chunk) : list chunk :=
  match s with
  | [] => []
  | c :: t =>
      if n <? len (chunk_data c) then chunk_drop n c :: t
      else chunklist_drop (n - len (chunk_data c)) t
  end.

Definition chunklist_buf : parsebuf (list chunk) :=
  mkBuf chunklist_chunk (fun s n => (Ok tt, chunklist_drop n s)) (fun _ => None).
