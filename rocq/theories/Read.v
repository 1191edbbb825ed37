(** Accessors and conversions of counter values, src/records/read.rs.  The parsers
    and the types [ReadValue] and [ReadGroup] are in Records.v. *)
From Coq Require Import NArith List Bool.
From Verif Require Import Base Types Platform Config Records.
Import ListNotations.
Open Scope N_scope.

(** Sequencing of computations that may panic. *)
Definition obind {A B : Type} (o : out A) (k : A -> out B) : out B :=
  match o with Ok a => k a | Err e => Err e | Panic => Panic | Fuel => Fuel end.

(** [GroupEntry], src/records/read.rs:235-240. *)
Record group_entry : Type := mkEntry { ge_format : N; ge_value : N; ge_id : N; ge_lost : N }.

(** Accessors of [GroupEntry], src/records/read.rs:242-258. *)
Definition ge_get_id (e : group_entry) : option N :=
  then_some (contains (ge_format e) RF_ID) (ge_id e).
Definition ge_get_lost (e : group_entry) : option N :=
  then_some (contains (ge_format e) RF_LOST) (ge_lost e).

(** The closure [read] of [GroupEntry::new], src/records/read.rs:261-265. *)
Definition read_word (l : list N) : out (N * list N) :=
  match l with [] => Panic | x :: t => Ok (x, t) end.

(** [GroupEntry::new], src/records/read.rs:260-275. *)
Definition entry_new (rf : N) (slice : list N) : out group_entry :=
  obind (read_word slice) (fun '(value, l1) =>
  obind (if contains rf RF_ID then read_word l1 else Ok (0, l1)) (fun '(id, l2) =>
  obind (if contains rf RF_LOST then read_word l2 else Ok (0, l2)) (fun '(lost, _) =>
  Ok (mkEntry rf value id lost)))).

(** [GroupIter], src/records/read.rs:299-302.  [gi_v] and [gi_size] are the fields
    [v] and [chunk_size] of the standard library's [ChunksExact]; its remainder is
    never looked at. *)
Record group_iter : Type := mkIter { gi_v : list N; gi_size : N; gi_format : N }.

(** [GroupIter::new], src/records/read.rs:304-313.  [chunks_exact] panics for size
    0 and cuts the slice to a multiple of the size. *)
Definition iter_new (g : read_group cow) : out group_iter :=
  let k := element_len (rg_format g) in
  let d := cow_list (rg_data g) in
  if k =? 0 then Panic
  else Ok (mkIter (take (len d - len d mod k) d) k (rg_format g)).

Definition with_v (it : group_iter) (v : list N) : group_iter :=
  mkIter v (gi_size it) (gi_format it).

(** [Some(GroupEntry::new(self.read_format, chunk?))]. *)
Definition item (it : group_iter) (c : option (list N)) : out (option group_entry) :=
  match c with
  | None => Ok None
  | Some s => obind (entry_new (gi_format it) s) (fun e => Ok (Some e))
  end.

(** The methods of [ChunksExact] (core::slice::iter), on [v]. *)
Definition ch_next (it : group_iter) : option (list N) * group_iter :=
  if len (gi_v it) <? gi_size it then (None, it)
  else (Some (take (gi_size it) (gi_v it)), with_v it (drop (gi_size it) (gi_v it))).

Definition ch_len (it : group_iter) : N := len (gi_v it) / gi_size it.

(** [n.overflowing_mul(chunk_size)]: on overflow the iterator is emptied. *)
Definition ch_nth (pl : platform) (it : group_iter) (n : N) : option (list N) * group_iter :=
  let start := n * gi_size it in
  if (len (gi_v it) <=? start mod 2 ^ pl_bits pl) || (usize_max pl <? start)
  then (None, with_v it [])
  else ch_next (with_v it (drop start (gi_v it))).

Definition ch_next_back (it : group_iter) : option (list N) * group_iter :=
  if len (gi_v it) <? gi_size it then (None, it)
  else let n := len (gi_v it) - gi_size it in
       (Some (drop n (gi_v it)), with_v it (take n (gi_v it))).

Definition ch_nth_back (it : group_iter) (n : N) : option (list N) * group_iter :=
  if ch_len it <=? n then (None, with_v it [])
  else let start := (ch_len it - 1 - n) * gi_size it in
       (Some (take (gi_size it) (drop start (gi_v it))), with_v it (take start (gi_v it))).

(** The iterator methods of [GroupIter], src/records/read.rs:315-356. *)
Definition it_next (it : group_iter) : out (option group_entry) * group_iter :=
  let (c, it') := ch_next it in (item it c, it').
Definition it_nth (pl : platform) (it : group_iter) (n : N)
  : out (option group_entry) * group_iter :=
  let (c, it') := ch_nth pl it n in (item it c, it').
Definition it_next_back (it : group_iter) : out (option group_entry) * group_iter :=
  let (c, it') := ch_next_back it in (item it c, it').
Definition it_nth_back (it : group_iter) (n : N) : out (option group_entry) * group_iter :=
  let (c, it') := ch_nth_back it n in (item it c, it').
(** [size_hint] (both bounds), [len] and [count]. *)
Definition it_len (it : group_iter) : N := ch_len it.
(** [last] is [next_back] of [ChunksExact]. *)
Definition it_last (it : group_iter) : out (option group_entry) := item it (fst (ch_next_back it)).

(** Accessors of [ReadGroup], src/records/read.rs:150-165. *)
Definition rg_get_enabled (g : read_group cow) : option N :=
  then_some (contains (rg_format g) RF_TIME_ENABLED) (rg_enabled g).
Definition rg_get_running (g : read_group cow) : option N :=
  then_some (contains (rg_format g) RF_TIME_RUNNING) (rg_running g).

(** [ReadGroup::len] and [is_empty], src/records/read.rs:137-144. *)
Definition group_len (g : read_group cow) : out N :=
  obind (iter_new g) (fun it => Ok (it_len it)).
Definition group_is_empty (g : read_group cow) : out bool :=
  obind (group_len g) (fun n => Ok (n =? 0)).

(** [ReadGroup::get] and [entries], src/records/read.rs:171-174, 185-188. *)
Definition group_get (pl : platform) (g : read_group cow) (i : N) : out (option group_entry) :=
  obind (iter_new g) (fun it => fst (it_nth pl it i)).

(** [Iterator::find]: calls [next] until the predicate holds. *)
Fixpoint it_find (fuel : nat) (f : group_entry -> bool) (it : group_iter)
  : out (option group_entry) :=
  match fuel with
  | O => Fuel
  | S n =>
      let (r, it') := it_next it in
      obind r (fun o =>
        match o with
        | None => Ok None
        | Some e => if f e then Ok (Some e) else it_find n f it'
        end)
  end.

(** [ReadGroup::get_by_id], src/records/read.rs:176-183. *)
Definition group_get_by_id (g : read_group cow) (id : N) : out (option group_entry) :=
  if negb (contains (rg_format g) RF_ID) then Ok None
  else obind (iter_new g) (fun it =>
         it_find (S (length (gi_v it)))
           (fun e => match ge_get_id e with Some i => i =? id | None => false end) it).

(** [ReadValue::from_group_and_entry], src/records/read.rs:40-49. *)
Definition value_of_entry (g : read_group cow) (e : group_entry) : read_value :=
  mkReadValue (difference (rg_format g) RF_GROUP) (ge_value e) (rg_enabled g) (rg_running g)
    (ge_id e) (ge_lost e).

(** [TryFrom<ReadGroup> for ReadValue], src/records/read.rs:86-106; [None] is
    [Err(TryFromGroupError)]. *)
Definition value_of_group (g : read_group cow) : out (option read_value) :=
  obind (iter_new g) (fun it =>
    let (r, it1) := it_next it in
    obind r (fun o =>
      match o with
      | None => Ok None
      | Some e =>
          obind (fst (it_next it1)) (fun o2 =>
            match o2 with
            | Some _ => Ok None
            | None => Ok (Some (value_of_entry g e))
            end)
      end)).
