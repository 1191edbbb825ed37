(** Outcomes, errors, Cow, buffer chunks. *)
From Coq Require Import NArith List.
From Verif Require Import Base.
Import ListNotations.
Open Scope N_scope.

(** [ErrorKind], src/error.rs:75-108. *)
Inductive error_kind : Type :=
| KEof
| KInvalidRecord
| KUnsupportedConfig
| KUnsupportedData
| KExternal.

(** What an error wraps.  [SrcIo code unexpected_eof] is a [std::io::Error]
    identified by an arbitrary code; [SrcMsg] is a crate message (text of the
    message replaced by one constant per call site); [SrcUser] is any other
    boxed error. *)
Inductive message : Type :=
| MsgSliceTooLong        (* src/parse.rs:454 *)
| MsgHeaderTooSmall      (* src/parse.rs:521 *)
| MsgNoRoomForSampleId   (* src/parse.rs:534 *)
| MsgSingleReadGroup     (* src/records/read.rs:369 *)
| MsgGroupReadSingle     (* src/records/read.rs:410 *)
| MsgReadFormatFlags     (* src/records/read.rs:376, 417 *)
| MsgGroupTooLarge       (* src/records/read.rs:435 *)
| MsgDynSize             (* src/records/sample.rs:236 *)
| MsgBuildIdLen (n : N)  (* src/records/mmap2.rs:200 *)
| MsgAttrSize (n : N)    (* src/impls/perf_event_attr.rs:39 *)
| MsgAttrTail.           (* src/impls/perf_event_attr.rs:101 *)

Inductive error_source : Type :=
| SrcIo (code : N) (unexpected_eof : bool)
| SrcMsg (m : message)
| SrcUser (code : N).

(** [ParseError], src/error.rs:26-29.  [e_kind] is [kind], src/error.rs:52-54, and
    [e_source] is [Error::source], src/error.rs:138-143. *)
Record perror : Type := mkError { e_kind : error_kind; e_source : option error_source }.

(** [ParseError::eof], src/error.rs:67-69 ([from_code], src/error.rs:57-59). *)
Definition eof_error : perror := mkError KEof None.

(** [ParseError::new], src/error.rs:34-42, and [From<BoxedError>],
    src/error.rs:157-165, which do the same. *)
Definition new_error (s : error_source) : perror := mkError KExternal (Some s).

(** [ParseError::with_kind], src/error.rs:61-63. *)
Definition with_kind (e : perror) (k : error_kind) : perror := mkError k (e_source e).

(** [ParseError::custom], src/error.rs:46-48; the text of the message is in Show.v. *)
Definition custom_error (k : error_kind) (m : message) : perror :=
  with_kind (new_error (SrcMsg m)) k.

(** [From<std::io::Error>], src/error.rs:147-155. *)
Definition io_error (code : N) (unexpected_eof : bool) : perror :=
  if unexpected_eof
  then with_kind (new_error (SrcIo code unexpected_eof)) KEof
  else new_error (SrcIo code unexpected_eof).

(** [e.kind() == ErrorKind::Eof]. *)
Definition is_eof (e : perror) : bool :=
  match e_kind e with KEof => true | _ => false end.

(** Result of running Rust code: a [ParseResult], a panic, or a loop that did
    not end within its (2^64) iterations. *)
Inductive out (A : Type) : Type :=
| Ok (a : A)
| Err (e : perror)
| Panic
| Fuel.
Arguments Ok {A} a.
Arguments Err {A} e.
Arguments Panic {A}.
Arguments Fuel {A}.

Definition out_map {A B : Type} (f : A -> B) (o : out A) : out B :=
  match o with Ok a => Ok (f a) | Err e => Err e | Panic => Panic | Fuel => Fuel end.

(** [Cow<'p, [T]>]: a borrow is an address into memory that outlives the parser,
    together with what is stored there. *)
Inductive cow (A : Type) : Type :=
| Borrowed (addr : N) (l : list A)
| Owned (l : list A).
Arguments Borrowed {A} addr l.
Arguments Owned {A} l.

(** Deref of a Cow. *)
Definition cow_list {A : Type} (c : cow A) : list A :=
  match c with Borrowed _ l => l | Owned l => l end.

(** [Cow::into_owned().into()]. *)
Definition cow_into_owned {A : Type} (c : cow A) : cow A := Owned (cow_list c).

(** [CowSliceExt::split_at], src/util/cow.rs:10, 20-33, for elements of [esz] bytes.
    The static empty slice [&[]] is given address 0.  Out of range panics. *)
Definition cow_split_at {A : Type} (esz : N) (c : cow A) (n : N) : out (cow A * cow A) :=
  match c with
  | Borrowed a l =>
      if len l <? n then Panic
      else Ok (Borrowed a (take n l), Borrowed (a + esz * n) (drop n l))
  | Owned l =>
      if n =? 0 then Ok (Owned l, Borrowed 0 [])
      else if n =? len l then Ok (Borrowed 0 [], Owned l)
      else if len l <? n then Panic
      else Ok (Owned (take n l), Owned (drop n l))
  end.

(** [CowSliceExt::truncate], src/util/cow.rs:13, 35-41. *)
Definition cow_truncate {A : Type} (c : cow A) (n : N) : out (cow A) :=
  match c with
  | Owned l => Ok (Owned (take n l))
  | Borrowed a l =>
      if len l <? n then Ok (Borrowed a l)
      else Ok (Borrowed a (take n l))
  end.

(** [ParseBufChunk], src/parsebuf.rs:25-33; an external chunk knows its address. *)
Inductive chunk : Type :=
| Temporary (d : list N)
| External (addr : N) (d : list N).

(** Deref, src/parsebuf.rs:57-67. *)
Definition chunk_data (c : chunk) : list N :=
  match c with Temporary d => d | External _ d => d end.

(** [ParseBufChunk::to_cow], src/parsebuf.rs:37-42. *)
Definition chunk_to_cow (c : chunk) : cow N :=
  match c with Temporary d => Owned d | External a d => Borrowed a d end.

(** [ParseBufChunk::truncate], src/parsebuf.rs:45-54. *)
Definition chunk_truncate (c : chunk) (n : N) : chunk :=
  if len (chunk_data c) <=? n then c
  else match c with
       | Temporary d => Temporary (take n d)
       | External a d => External a (take n d)
       end.
