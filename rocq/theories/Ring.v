(** A ring buffer which the kernel fills while it is read, as a source for the parser.

    Nothing here is from the crate: it is what a client makes of the memory it shares with the
    kernel ([data_head], [data_tail] of [perf_event_mmap_page], linux/perf_event.h) to read
    records from it with [parse_record].  Positions are counts of bytes since the ring was made;
    byte [k] is at [k mod size]. *)
From Coq Require Import NArith List Bool.
From Verif Require Import Base Types Platform Config Buf Parser Contract Flat Record SameFacts PropsSame Framing.
Import ListNotations.
Open Scope N_scope.

(** What is shared. *)
Record shared : Type := mkShared {
  sh_base : N;   (* where the memory begins *)
  sh_size : N;
  sh_mem : memory;
  sh_put : N;    (* data_head: how far the kernel has written *)
  sh_tail : N;   (* data_tail: how far the reader has released *)
}.

Definition cell (s : shared) (k : N) : N := sh_base s + k mod sh_size s.

Definition set_byte (m : memory) (x b : N) : memory := fun y => if y =? x then b else m y.

(** [f] from position [k] on. *)
Fixpoint store (base size k : N) (f : list N) (m : memory) : memory :=
  match f with
  | [] => m
  | b :: t => store base size (k + 1) t (set_byte m (base + k mod size) b)
  end.

(** The kernel writes a record, or drops it when there is no room. *)
Definition write (s : shared) (f : list N) : shared :=
  if sh_size s <? (sh_put s - sh_tail s) + len f then s
  else mkShared (sh_base s) (sh_size s) (store (sh_base s) (sh_size s) (sh_put s) f (sh_mem s))
         (sh_put s + len f) (sh_tail s).

(** A reader: it has looked at [data_head] once, and until it is done the kernel writes what is
    in [rd_script]: the first list of records by its next call, and so on. *)
Record reader : Type := mkRd { rd_shared : shared; rd_head : N; rd_at : N; rd_script : list (list (list N)) }.

Definition kernel (r : reader) : reader :=
  match rd_script r with
  | [] => r
  | w :: t => mkRd (fold_left write w (rd_shared r)) (rd_head r) (rd_at r) t
  end.

(** [n] bytes of memory. *)
Fixpoint stretch (m : memory) (x : N) (n : nat) : list N :=
  match n with O => [] | S n => m x :: stretch m (x + 1) n end.

(** What is there up to the end of the ring or to [data_head], lent where it is. *)
Definition ring_chunk (r : reader) : out chunk * reader :=
  let r := kernel r in
  let s := rd_shared r in
  let x := rd_at r mod sh_size s in
  if rd_head r =? rd_at r then (Err eof_error, r)
  else (Ok (External (sh_base s + x) (stretch (sh_mem s) (sh_base s + x)
         (N.to_nat (N.min (rd_head r - rd_at r) (sh_size s - x))))), r).

Definition ring_advance (r : reader) (n : N) : out unit * reader :=
  let r := kernel r in
  if rd_head r - rd_at r <? n then (Panic, r)
  else (Ok tt, mkRd (rd_shared r) (rd_head r) (rd_at r + n) (rd_script r)).

Definition ring_buf : parsebuf reader := mkBuf ring_chunk ring_advance (fun r => Some (rd_head r - rd_at r)).

(** Reading begins, with the kernel going on; and ends with what was read released. *)
Definition open_ring (s : shared) (ws : list (list (list N))) : reader := mkRd s (sh_put s) (sh_tail s) ws.
Definition close_ring (r : reader) : shared :=
  let s := fold_left write (concat (rd_script r)) (rd_shared r) in
  mkShared (sh_base s) (sh_size s) (sh_mem s) (sh_put s) (rd_at r).

(** What happens: the kernel writes, or the client looks at [data_head], calls [parse_record] [k]
    times, while the kernel writes, and then releases what it has read. *)
Inductive deed : Type := Write (f : list N) | Reads (k : nat) (ws : list (list (list N))).

(** [rs] are the results, those of each reading on their own. *)
Fixpoint session (pl : platform) (c : config) (s : shared) (es : list deed) (rs : list (list result)) : Prop :=
  match es with
  | [] => rs = []
  | Write f :: es => session pl c (write s f) es rs
  | Reads k ws :: es =>
      exists xs p' rs', rs = xs :: rs' /\ length xs = k /\
        run_gives pl ring_buf (new_parser (open_ring s ws) c) xs p' /\
        session pl c (close_ring (p_buf p')) es rs'
  end.

(** ** What it should amount to: a queue of records of at most [size] bytes *)

Definition admit_to (size : N) (q : list (list N)) (f : list N) : list (list N) :=
  if size <? len (concat q) + len f then q else q ++ [f].

(** The first [k] of [q], with [None] for those there are not. *)
Fixpoint first (k : nat) (q : list (list N)) : list (option (list N)) :=
  match k, q with
  | O, _ => []
  | S k, [] => None :: first k []
  | S k, f :: q => Some f :: first k q
  end.

(** The records read, in order.  They leave the queue when all have been read, after all that was
    written meanwhile; and what was written meanwhile is not read this time. *)
Fixpoint served (size : N) (q : list (list N)) (es : list deed) : list (list (option (list N))) :=
  match es with
  | [] => []
  | Write f :: es => served size (admit_to size q f) es
  | Reads k ws :: es =>
      first k q :: served size (skipn (Nat.min k (length q)) (fold_left (admit_to size) (concat ws) q)) es
  end.

(** All that was written. *)
Definition written (es : list deed) : list (list N) :=
  concat (map (fun e => match e with Write f => [f] | Reads _ ws => concat ws end) es).

(** The [n] bytes from position [k] on. *)
Fixpoint span (m : memory) (base size k : N) (n : nat) : list N :=
  match n with O => [] | S n => m (base + k mod size) :: span m base size (k + 1) n end.

(** A ring with the records [q] in it. *)
Definition sound (s : shared) : Prop := sh_size s <> 0 /\ sh_tail s <= sh_put s /\ sh_put s - sh_tail s <= sh_size s.
Definition holds (s : shared) (q : list (list N)) : Prop :=
  sound s /\ sh_put s = sh_tail s + len (concat q) /\
  span (sh_mem s) (sh_base s) (sh_size s) (sh_tail s) (length (concat q)) = concat q.

(** Where the kernel puts records: at words, of whole words. *)
Definition laid_out (s : shared) : Prop :=
  sh_base s mod 8 = 0 /\ sh_size s mod 8 = 0 /\ sh_size s < 2 ^ 64 /\ sh_tail s mod 8 = 0.

(** A record a kernel may write and which is read alike wherever it is: not a TEXT_POKE with an
    empty part, nor a sample with registers after a user stack (see [tame] in SameFacts.v). *)
Definition calm (pl : platform) (c : config) (f : list N) : Prop :=
  let o := order_of pl (c_endian c) in
  let t := from_order o (take 4 f) in
  frame o f /\ len f mod 8 = 0 /\ (t = 20 -> two_parts o f) /\
  (t = 9 -> o <> pl_host pl \/ contains (sample_type c) SF_STACK_USER && contains (sample_type c) SF_REGS_INTR = false).
