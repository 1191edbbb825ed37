(** The unsafe code of src/parse.rs, with the memory it works on.

    Parser.v gives the results of these functions; here what they do to memory is
    spelled out.  [None] is undefined behaviour. *)
From Coq Require Import NArith List Bool.
From Verif Require Import Base Types Platform Config Buf Parser.
Import ListNotations.
Open Scope N_scope.

(** A piece of memory: [MaybeUninit<u8>]s, [None] where nothing was written yet. *)
Definition cells : Type := list (option N).

(** [ptr::copy_nonoverlapping(src, m + dst, n)]: reads [n] bytes, writes [n] bytes, each
    within its piece of memory.  That [m] is not [src] is clear: [m] is held by
    [&mut] and [src] by [&]. *)
Definition copy (src : list N) (m : cells) (dst n : N) : option cells :=
  if (len src <? n) || (len m <? dst + n) then None
  else Some (take dst m ++ map Some (take n src) ++ drop (dst + n) m).

(** [dst.add(n)]: not past the end of the piece of memory. *)
Definition ptr_add (m : cells) (dst n : N) : option N :=
  if len m <? dst + n then None else Some (dst + n).

(** Reading bytes as [u8]: all have to be there. *)
Fixpoint written (m : cells) : option (list N) :=
  match m with
  | [] => Some []
  | Some b :: m => option_map (cons b) (written m)
  | None :: _ => None
  end.

(** [Vec<u8>]: its memory (as much as its capacity) and its length. *)
Record vec : Type := mkVec { v_mem : cells; v_len : N }.

(** [Vec::set_len]: within the capacity, and all of it written. *)
Definition set_len (v : vec) (n : N) : option vec :=
  if len (v_mem v) <? n then None
  else match written (take n (v_mem v)) with
       | Some _ => Some (mkVec (v_mem v) n)
       | None => None
       end.

(** The bytes of a [Vec]. *)
Definition vec_bytes (v : vec) : option (list N) := written (take (v_len v) (v_mem v)).

(** [slice::align_to] for elements of [size] bytes at multiples of [al]: what comes
    before, the elements, what comes after, of the bytes [l] at address [a]. *)
Definition align_to (a al size : N) (l : list N) : list N * (N * list N) * list N :=
  let h := (al - a mod al) mod al in
  if len l <? h then (l, (a, []), [])
  else let m := (len l - h) / size * size in
       (take h l, (a + h, take m (drop h l)), drop (h + m) l).

(** A reference to elements: they have to be aligned.  There is nothing to align where there are none. *)
Definition elements {A : Type} (al size : N) (native : list N -> A) (s : N * list N) : option (N * list A) :=
  if (fst s mod al =? 0) || (len (snd s) =? 0) then Some (fst s, map native (chunks size (snd s))) else None.

Section Methods.
Context (pl : platform) {S : Type} (PB : parsebuf S).

(** [parse_to_slice], src/parse.rs:268-286.  The pieces of memory it fails on are not looked at again. *)
Definition raw_to_slice (m : cells) : M S (option cells) :=
  loop (fun '(n, dst, m) =>
    if n =? 0 then ret (inr (Some m))
    else c <- m_chunk PB ;;
         let k := N.min (len (chunk_data c)) n in
         match copy (chunk_data c) m dst k, ptr_add m dst k with
         | Some m', Some dst' => m_advance PB k ;;; ret (inl (n - k, dst', m'))
         | _, _ => ret (inr None)
         end) (len m, 0, m).

(** [Vec::with_capacity(n)]: [grant n] is what is given, at least [n]. *)
Definition with_capacity (grant : N -> N) (n : N) : M S vec :=
  m_alloc pl n ;;; ret (mkVec (repeat None (N.to_nat (grant n))) 0).

(** [parse_bytes], src/parse.rs:236-250, with [parse_bytes_direct] and [parse_bytes_slow] (which have no unsafe code)
    as they are.  [spare_capacity_mut] is what comes after [v_len]. *)
Definition raw_parse_bytes (grant : N -> N) (n : N) : M S (option (cow N)) :=
  r <- parse_bytes_direct PB n ;;
  match r with
  | Some (a, d) => ret (Some (Borrowed a d))
  | None =>
      h <- m_hint PB ;;
      let fits := match h with Some hint => n <=? hint | None => false end in
      if fits then
        v <- with_capacity grant n ;;
        r <- raw_to_slice (drop (v_len v) (v_mem v)) ;;
        ret match r with
            | None => None
            | Some m =>
                match set_len (mkVec (take (v_len v) (v_mem v) ++ m) (v_len v)) n with
                | None => None
                | Some v => option_map Owned (vec_bytes v)
                end
            end
      else
        d <- parse_bytes_slow pl PB n ;;
        ret (Some (Owned d))
  end.

(** [parse_array_slow], src/parse.rs:289-293: an array of zeros, all of it as [MaybeUninit<u8>]s (which have
    size and alignment 1); and [parse_array], src/parse.rs:295-306. *)
Definition raw_array (n : N) : M S (option (list N)) :=
  c <- m_chunk PB ;;
  if len (chunk_data c) <? n then
    r <- raw_to_slice (repeat (Some 0) (N.to_nat n)) ;;
    ret match r with None => None | Some m => written m end
  else m_advance PB n ;;; ret (Some (take n (chunk_data c))).

(** [parse_slice_direct], src/parse.rs:441-468. *)
Definition raw_slice_direct {A : Type} (E : elem A) (n : N) : M S (option (option (N * list A))) :=
  c <- get_cfg ;;
  if negb (is_native pl (c_endian c)) then ret (Some None)
  else match checked_mul pl n (el_size E) with
       | None => fail (custom_error KInvalidRecord MsgSliceTooLong)
       | Some byte_len =>
           r <- parse_bytes_direct PB byte_len ;;
           ret match r with
               | None => Some None
               | Some (a, d) =>
                   let '(head, mid, tail) := align_to a (word_align pl) (el_size E) d in
                   if negb (len head =? 0) || negb (len tail =? 0) then Some None
                   else option_map Some (elements (word_align pl) (el_size E) (el_native E) mid)
               end
       end.

End Methods.
