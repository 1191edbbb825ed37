(** Which error refused data gets: where each part of a record ends, and what is wrong
    with it if it does not end well.

    Only lengths, counts and positions matter here; what the values are does not.  Like
    Wire.v and Accept.v this is independent of the parser model. *)
From Coq Require Import NArith List Bool.
From Verif Require Import Base Types Platform Wire WireAttr.
Import ListNotations.
Open Scope N_scope.

(** A part takes so many bytes of what is there, or is refused. *)
Inductive outcome : Type :=
| Takes (n : N)
| Fault (e : perror).

(** Given the error for the end of the data, and the data. *)
Definition part : Type := perror -> list N -> outcome.

Definition wrong (k : error_kind) (m : message) : perror := mkError k (Some (SrcMsg m)).

(** The number in some bytes. *)
Fixpoint digits (l : list N) : N :=
  match l with [] => 0 | b :: t => b + 256 * digits t end.
Definition number (o : order) (l : list N) : N :=
  digits (match o with LE => l | BE => rev l end).
Definition part_of (i n : N) (l : list N) : list N := take n (drop i l).

Definition nothing : part := fun _ _ => Takes 0.
Definition also (p q : part) : part :=
  fun e d =>
    match p e d with
    | Takes n => match q e (drop n d) with Takes k => Takes (n + k) | Fault e' => Fault e' end
    | Fault e' => Fault e'
    end.
Definition in_turn (ps : list part) : part := fold_right also nothing ps.
Definition if_ (b : bool) (p : part) : part := if b then p else nothing.

(** [n] bytes, of whatever value. *)
Definition plain (n : N) : part := fun e d => if len d <? n then Fault e else Takes n.

(** [k] bytes, and then a string or the like which takes all there is.  It may not be
    empty. *)
Definition and_rest (k : N) : part := fun e d => if len d <=? k then Fault e else Takes (len d).

Section Faults.
Context (bits : N) (host o : order) (w : settings).

(** The count in the 8 bytes at [i], where pointers have [bits] bits. *)
Definition count (i : N) (d : list N) : N := number o (part_of i 8 d) mod 2 ^ bits.

(** [n] items of [size] bytes.  In the byte order of the host they are looked at as
    memory: their size must fit an address, and there must be something left even if there
    are none. *)
Definition items (n size : N) : part :=
  fun e d =>
    let native := in_host o host 0 =? 0 in
    if native && (2 ^ bits <=? n * size) then Fault (wrong KInvalidRecord MsgSliceTooLong)
    else if native && (len d =? 0) then Fault e
    else plain (n * size) e d.

(** [head] bytes, then items as many as [n] finds in them. *)
Definition listed (head : N) (n : list N -> N) (size : N) : part :=
  fun e d => also (plain head) (items (n d) size) e d.

(** [n] bytes, of which there may be none, but not at the end of the data. *)
Definition chunk (n : N) : part := fun e d => if len d =? 0 then Fault e else plain n e d.

Definition raw_part : part :=
  fun e d => also (plain 4) (let n := number o (part_of 0 4 d) in plain (n + pad8 (4 + n))) e d.

Definition stack_part : part :=
  fun e d =>
    let n := count 0 d in
    also (in_turn [plain 8; chunk n; if_ (negb (n =? 0)) (plain 8)])
      (fun _ _ => if (negb (n =? 0)) && (n <? count (8 + n) d)
                  then Fault (wrong KInvalidRecord MsgDynSize) else Takes 0) e d.

Definition aux_part : part := fun e d => also (plain 8) (chunk (count 0 d)) e d.

Definition flag (b : bool) : N := if b then 1 else 0.

Definition refused (e : perror) : part := fun _ _ => Fault e.

Definition value_part : part :=
  if rbit w 3 then refused (wrong KUnsupportedConfig MsgSingleReadGroup)
  else if 2 ^ 5 <=? ws_read_format w then refused (wrong KUnsupportedConfig MsgReadFormatFlags)
  else plain (8 * (1 + flag (rbit w 0) + flag (rbit w 1) + flag (rbit w 2) + flag (rbit w 4))).

Definition group_part : part :=
  if negb (rbit w 3) then refused (wrong KUnsupportedConfig MsgGroupReadSingle)
  else if 2 ^ 5 <=? ws_read_format w then refused (wrong KUnsupportedConfig MsgReadFormatFlags)
  else fun e d =>
    let n := count 0 d * (1 + flag (rbit w 2) + flag (rbit w 4)) in
    in_turn [plain (8 * (1 + flag (rbit w 0) + flag (rbit w 1)));
             if 2 ^ bits <=? n then refused (wrong KInvalidRecord MsgGroupTooLarge) else nothing;
             items n 8] e d.

Definition values_part : part := if rbit w 3 then group_part else value_part.

Definition sample_part : part :=
  in_turn
    [ if_ (sbit w 16) (plain 8); if_ (sbit w 0) (plain 8); if_ (sbit w 1) (plain 8);
      if_ (sbit w 2) (plain 8); if_ (sbit w 3) (plain 8); if_ (sbit w 6) (plain 8);
      if_ (sbit w 9) (plain 8); if_ (sbit w 7) (plain 8); if_ (sbit w 8) (plain 8);
      if_ (sbit w 4) values_part;
      if_ (sbit w 5) (listed 8 (count 0) 8);
      if_ (sbit w 10) raw_part;
      if_ (sbit w 11) (listed (8 + 8 * flag (ws_hw_index w)) (count 0) 24);
      if_ (sbit w 12) (listed 8 (fun _ => bits_set (ws_regs_user w)) 8);
      if_ (sbit w 13) stack_part;
      if_ (sbit w 14) (plain 8); if_ (sbit w 15) (plain 8); if_ (sbit w 17) (plain 8);
      if_ (sbit w 18) (listed 8 (fun _ => bits_set (ws_regs_intr w)) 8);
      if_ (sbit w 19) (plain 8); if_ (sbit w 21) (plain 8);
      if_ (sbit w 22) (plain 8); if_ (sbit w 23) (plain 8);
      if_ (sbit w 20) aux_part ].

Definition build_id_part : part :=
  fun e d =>
    also (plain 24) (fun _ _ => let n := number o (part_of 0 1 d) in
      if 20 <? n then Fault (wrong KInvalidRecord (MsgBuildIdLen n)) else Takes 0) e d.

Definition poke_part : part :=
  fun e d =>
    let n := number o (part_of 8 2 d) + number o (part_of 10 2 d) in
    also (plain 12) (plain (n + pad8 (4 + n))) e d.

(** The body of a record of type [t] with misc bits [m]. *)
Definition body_part (t m : N) : part :=
  match t with
  | 1 => and_rest 32
  | 2 => plain 16
  | 3 => and_rest 8
  | 4 | 5 | 6 | 7 | 11 => plain 24
  | 8 => also (plain 8) value_part
  | 9 => sample_part
  | 10 => in_turn [plain 32; if N.testbit m 14 then build_id_part else plain 24; and_rest 8]
  | 12 | 13 | 15 | 21 => plain 8
  | 16 => listed 16 (count 8) 16
  | 17 => and_rest 16
  | 18 => plain 16
  | 19 => and_rest 8
  | 20 => poke_part
  | _ => and_rest 0
  end.

(** The sample_id at the end. *)
Definition id_len : N :=
  if ws_id_all w
  then 8 * (flag (sbit w 1) + flag (sbit w 2) + flag (sbit w 6) + flag (sbit w 9) + flag (sbit w 7) +
            flag (sbit w 16))
  else 0.

(** A record.  Where its body ends there is no more data, whatever the error for the end of
    the data around it. *)
Definition record_part : part :=
  fun e l =>
    let t := number o (part_of 0 4 l) in
    let m := number o (part_of 4 2 l) in
    let size := number o (part_of 6 2 l) in
    let id := if (t =? 1) || (t =? 9) then 0 else id_len in
    if len l <? 8 then Fault e
    else if size <? 8 then Fault (wrong KInvalidRecord MsgHeaderTooSmall)
    else if len l <? size then Fault e
    else if size - 8 <? id then Fault (wrong KInvalidRecord MsgNoRoomForSampleId)
    else match body_part t m (mkError KEof None) (part_of 8 (size - 8 - id) l) with
         | Takes _ => Takes size
         | Fault e' => Fault e'
         end.

(** An attr.  It has [size] bytes, but 4 more are asked for; what is past the fields of
    136 bytes is looked at up to there. *)
Definition attr_part : part :=
  fun e l =>
    let size := number o (part_of 4 4 l) in
    if len l <? 8 then Fault e
    else if negb (existsb (N.eqb size) versions || (136 <? size))
    then Fault (wrong KInvalidRecord (MsgAttrSize size))
    else if len l <? size + 4 then Fault e
    else if forallb (N.eqb 0) (part_of 136 (size - 132) l) || (size <=? 136) then Takes (size + 4)
    else Fault (wrong KUnsupportedData MsgAttrTail).
End Faults.
