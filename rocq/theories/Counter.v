(** The byte count of a parser as the machine keeps it: a [usize], src/parsebuf.rs:255-292.

    Elsewhere in the model the count ([p_off], Parser.v) is an unbounded number.  Here are the
    two things a machine does when the sum is too large for a [usize]. *)
From Coq Require Import NArith List Bool.
From Verif Require Import Base Types Platform Config Buf Parser Records Sample.
Open Scope N_scope.

(** Builds with overflow checks: [TrackingParseBuf::advance], src/parsebuf.rs:284-287, panics
    when [self.offset += count] overflows. *)
Definition counting {S : Type} (pl : platform) (PB : parsebuf S) : parsebuf (S * N) :=
  mkBuf (fun s => let '(r, b) := pb_chunk PB (fst s) in (r, (b, snd s)))
    (fun s n => if usize_max pl <? snd s + n then (Panic, s)
                else let '(r, b) := pb_advance PB (fst s) n in (r, (b, snd s + n)))
    (fun s => pb_hint PB (fst s)).

(** The same parser, with the count next to the buffer. *)
Definition counted {S : Type} (p : parser S) : parser (S * N) :=
  mkParser (p_cfg p) (p_buf p, p_off p) (p_off p) (p_log p).

(** Builds without: the count is kept modulo a power of two.  Subtraction of such counts. *)
Definition wrapping (pl : platform) (x : N) : N := x mod 2 ^ pl_bits pl.
Definition wrapping_sub (pl : platform) (x y : N) : N :=
  (wrapping pl x + 2 ^ pl_bits pl - wrapping pl y) mod 2 ^ pl_bits pl.

(** [parse_padded], src/parse.rs:347-364, in such a build: the only place where the count
    is looked at. *)
Definition parse_padded_wrapping {S A : Type} (pl : platform) (PB : parsebuf S) (padding : N) (m : M S A) : M S A :=
  if padding =? 0 then panic
  else
    off0 <- get_off ;;
    v <- m ;;
    off1 <- get_off ;;
    let r := wrapping_sub pl off1 off0 mod padding in
    (if r =? 0 then ret tt else parse_bytes_ignored PB (padding - r)) ;;;
    ret v.
