(** Bit fields of the structs generated by bindgen. *)
From Coq Require Import NArith List Bool.
From Verif Require Import Base Platform.
Import ListNotations.
Open Scope N_scope.

(** [u64::to_ne_bytes]; also the bytes of a [u64] seen through a union. *)
Definition byte_at (w i : N) : N := N.land (N.shiftr w (8 * i)) 255.
Definition ne_bytes (o : order) (w : N) : list N :=
  let le := map (byte_at w) [0; 1; 2; 3; 4; 5; 6; 7] in
  match o with LE => le | BE => rev le end.

(** [__BindgenBitfieldUnit::get_bit] and [get] (code generated by bindgen into
    the bindings crate, which is not part of /repo).  The index is a constant
    below 64 in every use, so the bounds check never fires; it is not modelled. *)
Definition get_bit (o : order) (st : list N) (index : N) : bool :=
  let byte := unwrap_or (get (index / 8) st) 0 in
  let bit_index := match o with LE => index mod 8 | BE => 7 - index mod 8 end in
  let mask := N.shiftl 1 bit_index in
  N.land byte mask =? mask.

Fixpoint get_loop (o : order) (st : list N) (off width : N) (k : nat) (i val : N) : N :=
  match k with
  | O => val
  | S k =>
      let val :=
        if get_bit o st (i + off) then
          N.lor val (N.shiftl 1 (match o with LE => i | BE => width - 1 - i end))
        else val in
      get_loop o st off width k (i + 1) val
  end.

Definition get_bits (o : order) (st : list N) (off width : N) : N :=
  get_loop o st off width (N.to_nat width) 0 0.
