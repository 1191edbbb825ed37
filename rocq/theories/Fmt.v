(** The Debug helpers of src/util/fmt.rs.  Characters are code points. *)
From Coq Require Import NArith List Bool.
From Verif Require Import Base Types.
Import ListNotations.
Open Scope N_scope.

(** [HexStr], src/util/fmt.rs:47-65. *)
Definition hex_nibble (n : N) : out N :=
  if n <=? 9 then Ok (48 + n) else if n <=? 15 then Ok (65 + n) else Panic.

Fixpoint hex_nibbles (l : list N) : out (list N) :=
  match l with
  | [] => Ok []
  | n :: t =>
      match hex_nibble n with
      | Ok c => out_map (cons c) (hex_nibbles t)
      | Err e => Err e | Panic => Panic | Fuel => Fuel
      end
  end.

Fixpoint hex_str (l : list N) : out (list N) :=
  match l with
  | [] => Ok []
  | b :: t =>
      match hex_nibbles [N.land b 15; N.shiftr b 4] with
      | Ok cs => out_map (app cs) (hex_str t)
      | Err e => Err e | Panic => Panic | Fuel => Fuel
      end
  end.

(** One step of [core::str::from_utf8] (std, not part of /repo; written from
    core/src/str/validations.rs): the width of the character at the front, or
    the length of the error ([None]: the input ends inside a character). *)
Inductive ustep : Type := UChar (w : N) | UBad (e : option N).

Definition in_range (lo hi b : N) : bool := (lo <=? b) && (b <=? hi).
Definition cont (b : N) : bool := in_range 128 191 b.

Definition second3 (b0 b1 : N) : bool :=
  (b0 =? 224) && in_range 160 191 b1
  || in_range 225 236 b0 && cont b1
  || (b0 =? 237) && in_range 128 159 b1
  || in_range 238 239 b0 && cont b1.

Definition second4 (b0 b1 : N) : bool :=
  (b0 =? 240) && in_range 144 191 b1
  || in_range 241 243 b0 && cont b1
  || (b0 =? 244) && in_range 128 143 b1.

Definition utf8_step (l : list N) : ustep :=
  match l with
  | [] => UBad None
  | b0 :: t =>
      if b0 <? 128 then UChar 1
      else if in_range 194 223 b0 then
        match t with
        | [] => UBad None
        | b1 :: _ => if cont b1 then UChar 2 else UBad (Some 1)
        end
      else if in_range 224 239 b0 then
        match t with
        | [] => UBad None
        | b1 :: t =>
            if second3 b0 b1 then
              match t with
              | [] => UBad None
              | b2 :: _ => if cont b2 then UChar 3 else UBad (Some 2)
              end
            else UBad (Some 1)
        end
      else if in_range 240 244 b0 then
        match t with
        | [] => UBad None
        | b1 :: t =>
            if second4 b0 b1 then
              match t with
              | [] => UBad None
              | b2 :: t =>
                  if cont b2 then
                    match t with
                    | [] => UBad None
                    | b3 :: _ => if cont b3 then UChar 4 else UBad (Some 3)
                    end
                  else UBad (Some 2)
              end
            else UBad (Some 1)
        end
      else UBad (Some 1)
  end.

(** [from_utf8]: [Ok], or the length of the valid part and of the error.  The
    [nat] bounds the recursion; the length of the input is enough. *)
Inductive uresult : Type := UOk | UErr (valid_up_to : N) (error_len : option N).

Fixpoint from_utf8 (k : nat) (pos : N) (l : list N) : uresult :=
  match l, k with
  | [], _ => UOk
  | _, O => UErr pos None
  | _, S k =>
      match utf8_step l with
      | UChar w => from_utf8 k (pos + w) (drop w l)
      | UBad e => UErr pos e
      end
  end.

(** [str::chars] on valid text (std; core/src/str/validations.rs,
    [next_code_point]). *)
Definition code_point (l : list N) : N * N :=
  match l with
  | b0 :: b1 :: b2 :: b3 :: _ =>
      if b0 <? 128 then (b0, 1)
      else if b0 <? 224 then (N.lor (N.shiftl (N.land b0 31) 6) (N.land b1 63), 2)
      else if b0 <? 240 then
        (N.lor (N.shiftl (N.land b0 15) 12) (N.lor (N.shiftl (N.land b1 63) 6) (N.land b2 63)), 3)
      else
        (N.lor (N.shiftl (N.land b0 7) 18)
           (N.lor (N.shiftl (N.land b1 63) 12)
              (N.lor (N.shiftl (N.land b2 63) 6) (N.land b3 63))), 4)
  | _ => (0, 1)
  end.

Fixpoint chars (k : nat) (l : list N) : list N :=
  match l, k with
  | [], _ => []
  | _, O => []
  | _, S k => let (c, w) := code_point (l ++ [0; 0; 0]) in c :: chars k (drop w l)
  end.

(** [u8::escape_ascii] (std). *)
Definition lower_hex (n : N) : N := if n <? 10 then 48 + n else 87 + n.
Definition escape_ascii (b : N) : list N :=
  if b =? 9 then [92; 116]
  else if b =? 13 then [92; 114]
  else if b =? 10 then [92; 110]
  else if b =? 39 then [92; 39]
  else if b =? 34 then [92; 34]
  else if b =? 92 then [92; 92]
  else if in_range 32 126 b then [b]
  else [92; 120; lower_hex (b / 16); lower_hex (b mod 16)].

(** [ByteStr], src/util/fmt.rs:11-42.  [esc] is [char::escape_debug] (a table of
    std, any function here).  Slicing and [split_at] panic out of range. *)
Section ByteStr.
Variable esc : N -> list N.

Fixpoint byte_str_loop (k : nat) (data : list N) : out (list N) :=
  match data, k with
  | [], _ => Ok [34]
  | _, O => Fuel
  | _, S k =>
      let r := from_utf8 (length data) 0 data in
      let text := match r with UOk => data | UErr v _ => take v data end in
      let errlen :=
        match r with UOk => 0 | UErr v e => unwrap_or e (len data - v) end in
      let data' := drop (len text) data in
      if len data' <? errlen then Panic
      else
        out_map
          (fun o => flat_map esc (chars (length text) text)
                    ++ flat_map escape_ascii (take errlen data') ++ o)
          (byte_str_loop k (drop errlen data'))
  end.

Definition byte_str (data : list N) : out (list N) :=
  out_map (cons 34) (byte_str_loop (length data) data).

End ByteStr.
