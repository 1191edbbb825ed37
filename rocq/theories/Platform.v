(** The host, and the [Endian] implementations. *)
From Coq Require Import NArith List.
From Verif Require Import Base.
Import ListNotations.
Open Scope N_scope.

Inductive order : Type := LE | BE.

(** Alignment of [u64], [perf_branch_entry] and [NamespaceEntry]: 4 on i686, 8 on the
    other platforms. *)
Inductive alignment : Type := Align4 | Align8.

(** Host byte order, width of [usize] in bits, alignment of [u64]. *)
Record platform : Type := mkPlatform { pl_host : order; pl_bits : N; pl_align : alignment }.

Definition align_bytes (al : alignment) : N := match al with Align4 => 4 | Align8 => 8 end.
Definition word_align (pl : platform) : N := align_bytes (pl_align pl).

(** Platforms the crate can be compiled for (std requires at least 32 bits here). *)
Definition pl_ok (pl : platform) : Prop := pl_bits pl = 32 \/ pl_bits pl = 64.

Definition usize_max (pl : platform) : N := 2 ^ pl_bits pl - 1.
Definition isize_max (pl : platform) : N := 2 ^ (pl_bits pl - 1) - 1.

(** [x as usize] for an unsigned [x]. *)
Definition as_usize (pl : platform) (x : N) : N := x mod 2 ^ pl_bits pl.

(** [usize::checked_mul]. *)
Definition checked_mul (pl : platform) (a b : N) : option N :=
  if a * b <=? usize_max pl then Some (a * b) else None.

(** [usize::checked_sub]. *)
Definition checked_sub (a b : N) : option N :=
  if b <=? a then Some (a - b) else None.

(** The values of the types in src/endian.rs: [Native] (38), [Little] (64),
    [Big] (92), [Dynamic] (120-126). *)
Inductive endian : Type := Native | Little | Big | DynBig | DynLittle.

Definition from_order (o : order) (l : list N) : N :=
  match o with LE => from_le l | BE => from_be l end.

(** [uN::from_ne_bytes]. *)
Definition from_ne (pl : platform) (l : list N) : N := from_order (pl_host pl) l.

(** [convert_u16], [convert_u32], [convert_u64], src/endian.rs:15-22, 40-59, 66-80,
    94-108, 128-148.  The three widths have the same body. *)
Definition convert (pl : platform) (e : endian) (l : list N) : N :=
  match e with
  | Native => from_ne pl l
  | Little => from_le l
  | Big => from_be l
  | DynBig => from_be l
  | DynLittle => from_le l
  end.

(** [is_native], src/endian.rs:24-31, 57-59, 83-87, 111-115, 150-155. *)
Definition is_native (pl : platform) (e : endian) : bool :=
  let ab := [97; 98] in
  match e with
  | Native => true
  | Little | DynLittle => from_le ab =? from_ne pl ab
  | Big | DynBig => from_be ab =? from_ne pl ab
  end.
