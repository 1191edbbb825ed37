(** Formatting of text: the parts of the standard library that the Debug and
    Display impls of the crate use (core/src/fmt; not part of /repo).  A text is a
    list of code points. *)
From Coq Require Import String Ascii NArith List Bool.
From Verif Require Import Base Types Read.
Import ListNotations.
Open Scope N_scope.

Definition text : Type := list N.

Definition txt (s : string) : text := map N_of_ascii (list_ascii_of_string s).

(** A value being formatted: the argument is the alternate flag, false for
    [{:?}] and true for [{:#?}].  Formatting may panic. *)
Definition fmt : Type := bool -> out text.

(** The digits of a number, highest first; the [nat] bounds the recursion. *)
Fixpoint digits (k : nat) (base n : N) : list N :=
  match k with
  | O => []
  | S k => if n <? base then [n] else digits k base (n / base) ++ [n mod base]
  end.

Definition digit_char (d : N) : N := if d <? 10 then 48 + d else 55 + d.

(** [{}] and [{:X}] of an unsigned integer. *)
Definition dec (n : N) : text := map digit_char (digits (S (N.size_nat n)) 10 n).
Definition hex (n : N) : text := map digit_char (digits (S (N.size_nat n)) 16 n).

(** [{:#016X}] ([Formatter::pad_integral]: the prefix counts towards the width). *)
Definition hex_016 (n : N) : text :=
  let h := hex n in txt "0x" ++ repeat 48 (14 - length h) ++ h.

Definition d_text (s : text) : fmt := fun _ => Ok s.
Definition d_dec (n : N) : fmt := d_text (dec n).
Definition d_bool (b : bool) : fmt := d_text (txt (if b then "true" else "false")).

(** [PadAdapter]: four spaces at the beginning of every line; the flag says
    whether a line is beginning. *)
Fixpoint pad (start : bool) (s : text) : text :=
  match s with
  | [] => []
  | c :: t => (if start then [32; 32; 32; 32] else []) ++ c :: pad (c =? 10) t
  end.

Definition nl : text := [10].

(** [DebugStruct::field], one after the other. *)
Fixpoint fields_plain (sep : string) (fs : list (string * fmt)) : out text :=
  match fs with
  | [] => Ok []
  | (n, v) :: t =>
      obind (v false) (fun s =>
      obind (fields_plain ", " t) (fun r => Ok (txt sep ++ txt n ++ txt ": " ++ s ++ r)))
  end.

Fixpoint fields_pretty (fs : list (string * fmt)) : out text :=
  match fs with
  | [] => Ok []
  | (n, v) :: t =>
      obind (v true) (fun s =>
      obind (fields_pretty t) (fun r =>
        Ok (pad true (txt n ++ txt ": " ++ s ++ txt "," ++ nl) ++ r)))
  end.

(** [debug_struct(name)], the fields, and [finish] or [finish_non_exhaustive]. *)
Definition d_struct (name : string) (fs : list (string * fmt)) (finish : bool) : fmt :=
  fun alt =>
    match fs with
    | [] => Ok (txt name ++ (if finish then [] else txt " { .. }"))
    | _ =>
        if alt then
          obind (fields_pretty fs) (fun s =>
            Ok (txt name ++ txt " {" ++ nl ++ s
                ++ (if finish then [] else pad true (txt ".." ++ nl)) ++ txt "}"))
        else
          obind (fields_plain " { " fs) (fun s =>
            Ok (txt name ++ s ++ (if finish then txt " }" else txt ", .. }")))
    end.

(** [debug_tuple(name).field(v).finish()]. *)
Definition d_tuple1 (name : string) (v : fmt) : fmt :=
  fun alt =>
    obind (v alt) (fun s =>
      Ok (txt name ++ txt "("
          ++ (if alt then nl ++ pad true (s ++ txt "," ++ nl) else s) ++ txt ")")).

(** [debug_list().entries(..).finish()]. *)
Fixpoint items_plain (sep : string) (vs : list fmt) : out text :=
  match vs with
  | [] => Ok []
  | v :: t =>
      obind (v false) (fun s =>
      obind (items_plain ", " t) (fun r => Ok (txt sep ++ s ++ r)))
  end.

Fixpoint items_pretty (vs : list fmt) : out text :=
  match vs with
  | [] => Ok []
  | v :: t =>
      obind (v true) (fun s =>
      obind (items_pretty t) (fun r => Ok (pad true (s ++ txt "," ++ nl) ++ r)))
  end.

Definition d_list (vs : list fmt) : fmt :=
  fun alt =>
    if alt then
      obind (items_pretty vs) (fun s =>
        Ok (txt "[" ++ (match vs with [] => [] | _ => nl end) ++ s ++ txt "]"))
    else obind (items_plain "" vs) (fun s => Ok (txt "[" ++ s ++ txt "]")).
