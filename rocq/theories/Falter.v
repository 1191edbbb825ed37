(** Sources which fail, and then go on: a [BufReader] over a pipe or a socket, whose [read] is
    interrupted or would block, or over a file which is still being written. *)
From Coq Require Import NArith List Bool.
From Verif Require Import Base BaseFacts Types Platform Config Buf Parser Contract Refine Client.
Import ListNotations.
Open Scope N_scope.

(** What a source will do: some bytes, then a failure, then more bytes, and so on. *)
Definition course : Type := nat -> list N * perror.
Definition next (f : course) : course := fun n => f (S n).
(** The first [n] bytes are gone. *)
Definition onward (n : N) (f : course) : course :=
  fun k => match k with O => (drop n (fst (f O)), snd (f O)) | _ => f k end.

(** As [contract] (Contract.v), from the documentation of the trait (src/parsebuf.rs:69-109),
    which does not say that a failure is for good: each is given once. *)
Record falters {S : Type} (PB : parsebuf S) (mo : mode) (cap : N) (m : memory)
  (rep : S -> course -> N -> Prop) : Prop := mkFalters {
  fl_stop : forall s f a, rep s f a -> fst (f O) = [] ->
    exists s', pb_chunk PB s = (Err (snd (f O)), s') /\ rep s' (next f) a;
  fl_chunk : forall s f a, rep s f a -> fst (f O) <> [] ->
    exists c s', pb_chunk PB s = (Ok c, s') /\ rep s' f a /\
      chunk_data c <> [] /\ (exists r, fst (f O) = chunk_data c ++ r) /\
      chunk_ok mo m (fst (f O)) a c /\
      forall n, n <= len (chunk_data c) ->
        exists s'', pb_advance PB s' n = (Ok tt, s'') /\ rep s'' (onward n f) (a + n);
  fl_hint : forall s f a h, rep s f a -> pb_hint PB s = Some h -> h <= cap;
  fl_nohint : forall s f a, rep s f a -> pb_hint PB s = None -> 16384 <= cap;
}.
Arguments fl_stop {S PB mo cap m rep} _.
Arguments fl_chunk {S PB mo cap m rep} _.
Arguments fl_hint {S PB mo cap m rep} _.
Arguments fl_nohint {S PB mo cap m rep} _.

Definition faltering {S : Type} (PB : parsebuf S) (mo : mode) (cap : N) (mem : memory)
  (p : parser S) (f : course) (a : N) : Prop :=
  exists rep g, falters PB mo cap mem rep /\ rep (p_buf p) g a /\ forall n, g n = f n /\ wf (fst (f n)).

(** The next [n] bytes are taken, and the failure is still to come. *)
Definition goes_on {S : Type} (PB : parsebuf S) (mo : mode) (cap : N) (mem : memory) (p : parser S) (f : course) (a n : N)
  (p' : parser S) : Prop :=
  n <= len (fst (f O)) /\ p_cfg p' = p_cfg p /\ p_off p' = p_off p + n /\ faltering PB mo cap mem p' (onward n f) (a + n).
(** All bytes up to the failure are taken, and what comes after it is next. *)
Definition passes {S : Type} (PB : parsebuf S) (mo : mode) (cap : N) (mem : memory) (p : parser S) (f : course) (a : N)
  (p' : parser S) : Prop :=
  let n := len (fst (f O)) in
  p_cfg p' = p_cfg p /\ p_off p' = p_off p + n /\ faltering PB mo cap mem p' (next f) (a + n).

(** What can be left of [f]. *)
Definition rest_of (f g : course) : Prop :=
  exists j n, forall k, g k = onward n (fun i => f (j + i)%nat) k.

(** A failure which is for good. *)
Definition for_good (l : list N) (e : perror) : course := fun n => match n with O => (l, e) | _ => ([], e) end.

(** Some lists of bytes, each followed by a failure, and then nothing more. *)
Definition pieces (ps : list (list N * perror)) : course := fun n => nth n ps ([], eof_error).

(** * [BufReader<R>] once more, src/parsebuf.rs:134-153

    As [bufreader] (Buf.v), but each [read] of the underlying reader gives bytes, or none
    (which is taken for the end), or fails; [fill_buf] tries again with the next call, and does
    not do so by itself for [ErrorKind::Interrupted].  After the given calls, nothing. *)
Inductive read_call : Type :=
| Gives (d : list N)
| Fails (code : N) (eof : bool).

Record trickle : Type := mkTrickle { tr_buf : list N; tr_reads : list read_call }.

Definition trickle_chunk (s : trickle) : out chunk * trickle :=
  match tr_buf s with
  | _ :: _ => (Ok (Temporary (tr_buf s)), s)
  | [] =>
      match tr_reads s with
      | [] => (Err eof_error, s)
      | Gives [] :: rs => (Err eof_error, mkTrickle [] rs)
      | Gives d :: rs => (Ok (Temporary d), mkTrickle d rs)
      | Fails code e :: rs => (Err (io_error code e), mkTrickle [] rs)
      end
  end.

Definition trickle_buf : parsebuf trickle :=
  mkBuf trickle_chunk (fun s n => (Ok tt, mkTrickle (drop n (tr_buf s)) (tr_reads s))) (fun _ => None).

(** What such reads amount to, after the bytes [b]. *)
Fixpoint ahead (b : list N) (rs : list read_call) : list (list N * perror) :=
  match rs with
  | [] => [(b, eof_error)]
  | Gives [] :: rs => (b, eof_error) :: ahead [] rs
  | Gives d :: rs => ahead (b ++ d) rs
  | Fails code e :: rs => (b, io_error code e) :: ahead [] rs
  end.

(** * A source which repeats its first failure for ever

    Not in the crate.  It turns a source which falters into one that meets [contract]. *)
Definition stick {S : Type} (PB : parsebuf S) : parsebuf (S * option perror) :=
  mkBuf
    (fun '(s, k) =>
       match k with
       | Some e => (Err e, (s, Some e))
       | None =>
           match pb_chunk PB s with
           | (Err e, s') => (Err e, (s', Some e))
           | (r, s') => (r, (s', None))
           end
       end)
    (fun '(s, k) n =>
       match pb_advance PB s n with
       | (Err e, s') => (Err e, (s', Some e))
       | (r, s') => (r, (s', k))
       end)
    (fun '(s, k) => match k with Some _ => Some 0 | None => pb_hint PB s end).

Definition stuck {S : Type} (p : parser S) (k : option perror) : parser (S * option perror) :=
  mkParser (p_cfg p) (p_buf p, k) (p_off p) (p_log p).

(** * Programs which stop at the first failure

    [firm]: and would not have seen one if they succeed.  The types of record whose parser reads
    to the end of the source ([parse_rest] takes a failure of kind [Eof] for the end,
    src/parse.rs:391-409) are left out, but not as records of a given size. *)
Definition to_the_end (t : N) : bool :=
  negb (existsb (N.eqb t) [2; 4; 5; 6; 7; 8; 9; 11; 12; 13; 15; 16; 18; 20; 21]).

Fixpoint firm {A : Type} (m : prog A) : Prop :=
  match m with
  | PThen m k => firm m /\ forall x, firm (k x)
  | PTry _ => False
  | PIf _ m | PRepeat _ m _ => firm m
  | PRest | PTrimmed => False
  | PBody t => to_the_end t = false
  | _ => True
  end.

(** Nothing is read. *)
Definition idle {A : Type} (m : prog A) : Prop :=
  match m with PRet _ | PError _ => True | _ => False end.

(** As [firm], but the last step that reads may read to the end, or look at the failure. *)
Fixpoint obedient {A : Type} (m : prog A) : Prop :=
  match m with
  | PThen m k => (firm m /\ forall x, obedient (k x)) \/ (obedient m /\ forall x, idle (k x))
  | PTry m | PIf _ m => obedient m
  | PRepeat _ m _ => firm m
  | _ => True
  end.
