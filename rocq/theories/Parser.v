(** The [Parser] and its methods, src/parse.rs. *)
From Coq Require Import NArith List Bool.
From Verif Require Import Base Types Platform Config Buf.
Import ListNotations.
Open Scope N_scope.

(** [Parser], src/parse.rs:145-148, with the [TrackingParseBuf]
    (src/parsebuf.rs:255-292) flattened into [p_buf] and [p_off].  [p_log] is a
    ghost: the size in bytes of every [Vec::with_capacity] so far, latest first. *)
Record parser (S : Type) : Type := mkParser {
  p_cfg : config;
  p_buf : S;
  p_off : N;
  p_log : list N;
}.
Arguments mkParser {S} _ _ _ _.
Arguments p_cfg {S} _.
Arguments p_buf {S} _.
Arguments p_off {S} _.
Arguments p_log {S} _.

(** [Parser::new], src/parse.rs:156-161. *)
Definition new_parser {S : Type} (s : S) (c : config) : parser S := mkParser c s 0 [].

(** A parser method: [&mut self -> ParseResult<A>]. *)
Definition M (S A : Type) : Type := parser S -> out A * parser S.

Definition ret {S A : Type} (a : A) : M S A := fun p => (Ok a, p).
Definition fail {S A : Type} (e : perror) : M S A := fun p => (Err e, p).
Definition panic {S A : Type} : M S A := fun p => (Panic, p).

(** The [?] operator. *)
Definition bind {S A B : Type} (m : M S A) (k : A -> M S B) : M S B :=
  fun p => match m p with
           | (Ok a, p') => k a p'
           | (Err e, p') => (Err e, p')
           | (Panic, p') => (Panic, p')
           | (Fuel, p') => (Fuel, p')
           end.

Notation "x <- m ;; k" := (bind m (fun x => k))
  (at level 61, m at next level, right associativity).
Notation "m ;;; k" := (bind m (fun _ => k))
  (at level 61, right associativity).

(** [Parser::config] and [endian], src/parse.rs:163-173.  [Parser::parse] and
    [parse_with], src/parse.rs:308-321, and the trait [Parse], src/parse.rs:115-121,
    call the parser they are given; the model calls it directly. *)
Definition get_cfg {S : Type} : M S config := fun p => (Ok (p_cfg p), p).
Definition get_off {S : Type} : M S N := fun p => (Ok (p_off p), p).

(** Lift a pure computation that may panic or fail. *)
Definition lift {S A : Type} (o : out A) : M S A := fun p => (o, p).

(** Loops: [body x] either continues with a new loop state ([inl]) or leaves the
    loop ([inr]).  [loop_pos n] runs at most [n] rounds. *)
Fixpoint loop_pos {S St B : Type} (body : St -> M S (St + B)) (n : positive) (x : St)
  : M S (St + B) :=
  match n with
  | xH => body x
  | xO m =>
      r <- loop_pos body m x ;;
      match r with inl y => loop_pos body m y | inr b => ret (inr b) end
  | xI m =>
      r <- body x ;;
      match r with
      | inl y =>
          r2 <- loop_pos body m y ;;
          match r2 with inl z => loop_pos body m z | inr b => ret (inr b) end
      | inr b => ret (inr b)
      end
  end.

Definition loop_fuel : positive := (2 ^ 64)%positive.

Definition loop {S St B : Type} (body : St -> M S (St + B)) (x : St) : M S B :=
  r <- loop_pos body loop_fuel x ;;
  match r with
  | inl _ => lift Fuel
  | inr b => ret b
  end.

(** A sub-parser [q] is run and then dropped; its reservations are remembered. *)
Definition sub {S S2 A : Type} (m : M S2 A) (q : parser S2) : M S A :=
  fun p => let '(r, q') := m q in
           (r, mkParser (p_cfg p) (p_buf p) (p_off p) (p_log q' ++ p_log p)).

Section Methods.
Context (pl : platform) {S : Type} (PB : parsebuf S).

(** [self.data.chunk()]. *)
Definition m_chunk : M S chunk :=
  fun p => let '(r, s) := pb_chunk PB (p_buf p) in
           (r, mkParser (p_cfg p) s (p_off p) (p_log p)).

(** [self.data.advance(n)], src/parsebuf.rs:284-287. *)
Definition m_advance (n : N) : M S unit :=
  fun p => let '(r, s) := pb_advance PB (p_buf p) n in
           (r, mkParser (p_cfg p) s (p_off p + n) (p_log p)).

Definition m_hint : M S (option N) := fun p => (Ok (pb_hint PB (p_buf p)), p).

(** [Vec::with_capacity] for [n] bytes: capacity overflow panics. *)
Definition m_alloc (n : N) : M S unit :=
  fun p => if isize_max pl <? n then (Panic, p)
           else (Ok tt, mkParser (p_cfg p) (p_buf p) (p_off p) (n :: p_log p)).

(** [safe_capacity_bound::<T>], src/parse.rs:188-201; [size] is [size_of::<T>()]. *)
Definition safe_capacity_bound (size : N) : M S N :=
  if size =? 0 then ret (usize_max pl)
  else h <- m_hint ;; ret (unwrap_or h 16384 / size).

(** [ParseBufCursor::new], src/parsebuf.rs:162-189.  The fixed-size
    [Vec::with_capacity(2)] and the copy of temporary chunks are not logged. *)
Definition cursor_new (n : N) : M S cursor :=
  chunks <- loop (fun '(n, chunks) =>
    if n =? 0 then ret (inr chunks)
    else c <- m_chunk ;;
         let c := chunk_truncate c n in
         let cl := len (chunk_data c) in
         let chunks := if 0 <? cl then chunks ++ [chunk_to_cow c] else chunks in
         m_advance cl ;;;
         ret (inl (n - cl, chunks))) (n, []) ;;
  ret (mkCursor (rev chunks) 0 n).

(** [split_at], src/parse.rs:177-180. *)
Definition split_at (n : N) : M S (parser cursor) :=
  c <- cursor_new n ;;
  cfg <- get_cfg ;;
  ret (new_parser c cfg).

(** [parse_bytes_direct], src/parse.rs:203-215; the result is a borrow. *)
Definition parse_bytes_direct (n : N) : M S (option (N * list N)) :=
  c <- m_chunk ;;
  match c with
  | Temporary _ => ret None
  | External a d =>
      if len d <? n then ret None
      else m_advance n ;;; ret (Some (a, take n d))
  end.

(** [parse_bytes_slow], src/parse.rs:219-233. *)
Definition parse_bytes_slow (n : N) : M S (list N) :=
  b <- safe_capacity_bound 1 ;;
  m_alloc (N.min b n) ;;;
  loop (fun '(n, bytes) =>
    if n =? 0 then ret (inr bytes)
    else c <- m_chunk ;;
         let c := chunk_truncate c n in
         let bytes := bytes ++ chunk_data c in
         let cl := len (chunk_data c) in
         m_advance cl ;;;
         ret (inl (n - cl, bytes))) (n, []).

(** [parse_to_slice], src/parse.rs:268-286; returns the bytes written. *)
Definition parse_to_slice (n : N) : M S (list N) :=
  loop (fun '(n, dst) =>
    if n =? 0 then ret (inr dst)
    else c <- m_chunk ;;
         let cl := N.min (len (chunk_data c)) n in
         let dst := dst ++ take cl (chunk_data c) in
         m_advance cl ;;;
         ret (inl (n - cl, dst))) (n, []).

(** [parse_bytes], src/parse.rs:236-250. *)
Definition parse_bytes (n : N) : M S (cow N) :=
  r <- parse_bytes_direct n ;;
  match r with
  | Some (a, d) => ret (Borrowed a d)
  | None =>
      h <- m_hint ;;
      let fits := match h with Some hint => n <=? hint | None => false end in
      if fits then
        m_alloc n ;;;
        d <- parse_to_slice n ;;
        ret (Owned d)
      else
        d <- parse_bytes_slow n ;;
        ret (Owned d)
  end.

(** [parse_bytes_ignored], src/parse.rs:254-264. *)
Definition parse_bytes_ignored (n : N) : M S unit :=
  loop (fun n =>
    if n =? 0 then ret (inr tt)
    else c <- m_chunk ;;
         let consumed := N.min (len (chunk_data c)) n in
         m_advance consumed ;;;
         ret (inl (n - consumed))) n.

(** [parse_array::<N>] and [parse_array_slow], src/parse.rs:289-306, and [Parse]
    for arrays of bytes, src/parse.rs:657-665. *)
Definition parse_array (n : N) : M S (list N) :=
  c <- m_chunk ;;
  if len (chunk_data c) <? n then parse_to_slice n
  else m_advance n ;;; ret (take n (chunk_data c)).

(** [parse_u8] .. [parse_u64], src/parse.rs:367-388, and the [Parse] impls for
    integers, src/parse.rs:617-655. *)
Definition parse_u8 : M S N :=
  a <- parse_array 1 ;; ret (match a with [b] => b | _ => 0 end).
Definition parse_u16 : M S N :=
  a <- parse_array 2 ;; c <- get_cfg ;; ret (convert pl (c_endian c) a).
Definition parse_u32 : M S N :=
  a <- parse_array 4 ;; c <- get_cfg ;; ret (convert pl (c_endian c) a).
Definition parse_u64 : M S N :=
  a <- parse_array 8 ;; c <- get_cfg ;; ret (convert pl (c_endian c) a).

(** [parse_if], [parse_if_with], src/parse.rs:324-337. *)
Definition parse_if {A : Type} (b : bool) (m : M S A) : M S (option A) :=
  if b then a <- m ;; ret (Some a) else ret None.

(** [parse_padded], src/parse.rs:347-364.  Subtraction cannot underflow, the
    offset never decreases. *)
Definition parse_padded {A : Type} (padding : N) (m : M S A) : M S A :=
  if padding =? 0 then panic
  else
    off0 <- get_off ;;
    v <- m ;;
    off1 <- get_off ;;
    let r := (off1 - off0) mod padding in
    (if r =? 0 then ret tt else parse_bytes_ignored (padding - r)) ;;;
    ret v.

(** [parse_rest], src/parse.rs:391-409. *)
Definition parse_rest : M S (cow N) :=
  c <- m_chunk ;;
  let bytes := chunk_to_cow c in
  m_advance (len (cow_list bytes)) ;;;
  loop (fun bytes => fun p =>
    match m_chunk p with
    | (Ok c, p') =>
        (m_advance (len (chunk_data c)) ;;;
         ret (inl (Owned (cow_list bytes ++ chunk_data c)))) p'
    | (Err e, p') => if is_eof e then (Ok (inr bytes), p') else (Err e, p')
    | (Panic, p') => (Panic, p')
    | (Fuel, p') => (Fuel, p')
    end) bytes.

(** The trimming loop of [parse_rest_trim_nul], src/parse.rs:416-419.  The fuel
    is the length: each round removes one byte. *)
Fixpoint trim_nul_aux (fuel : nat) (rest : list N) : list N :=
  match fuel with
  | O => rest
  | Datatypes.S f =>
      match split_last rest with
      | Some (h, b) => if b =? 0 then trim_nul_aux f h else rest
      | None => rest
      end
  end.

(** [parse_rest_trim_nul], src/parse.rs:412-423. *)
Definition parse_rest_trim_nul : M S (cow N) :=
  bytes <- parse_rest ;;
  let rest := trim_nul_aux (length (cow_list bytes)) (cow_list bytes) in
  lift (cow_truncate bytes (len rest)).

End Methods.

(** An element type of [parse_slice]: [size_of], the [Parse] impl, and the value
    the host sees when [size_of] bytes are reinterpreted as the type. *)
Record elem (A : Type) : Type := mkElem {
  el_size : N;
  el_parse : forall S, parsebuf S -> M S A;
  el_native : list N -> A;
}.
Arguments mkElem {A} _ _ _.
Arguments el_size {A} _.
Arguments el_parse {A} _ {S} _.
Arguments el_native {A} _ _.

Section Slices.
Context (pl : platform) {S : Type} (PB : parsebuf S) {A : Type} (E : elem A).

(** [parse_slice_direct], src/parse.rs:441-468.  [align_to] gives an empty head
    iff the address is aligned or the slice is empty (the standard library's
    behaviour; an empty slice is all "head" of length 0); the tail is then empty
    because the length is a multiple of the size. *)
Definition parse_slice_direct (n : N) : M S (option (N * list A)) :=
  c <- get_cfg ;;
  if negb (is_native pl (c_endian c)) then ret None
  else match checked_mul pl n (el_size E) with
       | None => fail (custom_error KInvalidRecord MsgSliceTooLong)
       | Some byte_len =>
           r <- parse_bytes_direct PB byte_len ;;
           match r with
           | None => ret None
           | Some (a, d) =>
               if (a mod word_align pl =? 0) || (len d =? 0)
               then ret (Some (a, map (el_native E) (chunks (el_size E) d)))
               else ret None
           end
       end.

(** [parse_repeated], src/parse.rs:488-495. *)
Definition parse_repeated (n : N) : M S (list A) :=
  b <- safe_capacity_bound pl PB (el_size E) ;;
  m_alloc pl (N.min n b * el_size E) ;;;
  loop (fun '(n, vec) =>
    if n =? 0 then ret (inr vec)
    else x <- el_parse E PB ;;
         ret (inl (n - 1, vec ++ [x]))) (n, []).

(** [parse_slice], src/parse.rs:477-485. *)
Definition parse_slice (n : N) : M S (cow A) :=
  r <- parse_slice_direct n ;;
  match r with
  | Some (a, l) => ret (Borrowed a l)
  | None => l <- parse_repeated n ;; ret (Owned l)
  end.

End Slices.

(** [u64] as an element type. *)
Definition elem_u64 (pl : platform) : elem N :=
  mkElem 8 (fun S PB => parse_u64 pl PB) (from_ne pl).
