(** Lists indexed by binary naturals, base-256 digits, bit counting.

    Bytes, machine integers, lengths and addresses are all [N].  Nothing here is
    specific to the crate except that it is what the other model files use. *)
From Coq Require Import NArith List Bool.
Import ListNotations.
Open Scope N_scope.

(** Length of a list as a binary natural. *)
Definition len {A : Type} (l : list A) : N := N.of_nat (length l).

(** [take n l] is [l[..n]] (all of [l] if [n] is too large).  Structural on the
    list, so a huge [n] costs nothing. *)
Fixpoint take {A : Type} (n : N) (l : list A) : list A :=
  match l with
  | [] => []
  | x :: t => if n =? 0 then [] else x :: take (N.pred n) t
  end.

(** [drop n l] is [l[n..]] (empty if [n] is too large). *)
Fixpoint drop {A : Type} (n : N) (l : list A) : list A :=
  match l with
  | [] => []
  | x :: t => if n =? 0 then l else drop (N.pred n) t
  end.

(** [l.get(n)]. *)
Fixpoint get {A : Type} (n : N) (l : list A) : option A :=
  match l with
  | [] => None
  | x :: t => if n =? 0 then Some x else get (N.pred n) t
  end.

(** Last element and everything before it ([slice::split_last]). *)
Fixpoint split_last {A : Type} (l : list A) : option (list A * A) :=
  match l with
  | [] => None
  | x :: t =>
      match split_last t with
      | None => Some ([], x)
      | Some (h, y) => Some (x :: h, y)
      end
  end.

(** [slice::chunks_exact(k)] as a list of slices; the remainder is dropped.
    The [nat] argument only bounds the recursion, the length is enough. *)
Fixpoint chunks_aux {A : Type} (fuel : nat) (k : N) (l : list A) : list (list A) :=
  match fuel with
  | O => []
  | S f => if len l <? k then [] else take k l :: chunks_aux f k (drop k l)
  end.

Definition chunks {A : Type} (k : N) (l : list A) : list (list A) :=
  chunks_aux (length l) k l.

(** [uN::from_le_bytes]. *)
Fixpoint from_le (l : list N) : N :=
  match l with
  | [] => 0
  | b :: t => b + 256 * from_le t
  end.

(** [uN::from_be_bytes]. *)
Definition from_be (l : list N) : N := from_le (rev l).

(** [count_ones]. *)
Fixpoint popcount_pos (p : positive) : N :=
  match p with
  | xH => 1
  | xO q => popcount_pos q
  | xI q => 1 + popcount_pos q
  end.

Definition popcount (n : N) : N :=
  match n with N0 => 0 | Npos p => popcount_pos p end.

(** [flags.contains(f)] on the bits of a bitflags type (bitflags 2: [(a & b) == b]). *)
Definition contains (a b : N) : bool := N.land a b =? b.

(** [a - b] on a bitflags type (set difference). *)
Definition difference (a b : N) : N := N.ldiff a b.

(** [Option::or]. *)
Definition opt_or {A : Type} (a b : option A) : option A :=
  match a with Some _ => a | None => b end.

(** [Option::unwrap_or]. *)
Definition unwrap_or {A : Type} (a : option A) (d : A) : A :=
  match a with Some x => x | None => d end.

(** [bool::then_some]. *)
Definition then_some {A : Type} (b : bool) (x : A) : option A :=
  if b then Some x else None.
