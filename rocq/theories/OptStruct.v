(** The [option_struct!] macro, src/macros.rs:75-219: a struct of
    [MaybeUninit] fields with a word of presence bits. *)
From Coq Require Import NArith List Bool.
From Verif Require Import Base Types Records Sample.
Import ListNotations.
Open Scope N_scope.

Section OptStruct.
Context {V : Type}.

(** The struct, src/macros.rs:85-92.  An uninitialised field is [None]; reading
    one is undefined behaviour, shown here as [Panic].  Simplification: all
    fields are values of one type [V] (a sum of the field types). *)
Record ostruct : Type := mkOs { os_flags : N; os_fields : list (option V) }.

(** [Self::new], src/macros.rs:111-131, for a flag type of [bits] bits.  Fields
    are numbered in order, src/macros.rs:190-194. *)
Fixpoint os_init (i : N) (vals : list (option V)) (flags : N) : N * list (option V) :=
  match vals with
  | [] => (flags, [])
  | Some v :: t =>
      let (f, l) := os_init (i + 1) t (N.lor flags (N.shiftl 1 i)) in (f, Some v :: l)
  | None :: t =>
      let (f, l) := os_init (i + 1) t flags in (f, None :: l)
  end.

Definition os_new (bits : N) (vals : list (option V)) : out ostruct :=
  if len vals <? bits then
    let (f, l) := os_init 0 vals 0 in Ok (mkOs f l)
  else Panic.

(** [assume_init_ref]. *)
Definition os_slot (s : ostruct) (i : N) : out V :=
  match get i (os_fields s) with Some (Some v) => Ok v | _ => Panic end.

Definition os_flag (s : ostruct) (i : N) : bool :=
  negb (N.land (os_flags s) (N.shiftl 1 i) =? 0).

(** The accessor of field [i], src/macros.rs:133-142. *)
Definition os_get (s : ostruct) (i : N) : out (option V) :=
  if os_flag s i then
    match os_slot s i with Ok v => Ok (Some v) | Err e => Err e | Panic => Panic | Fuel => Fuel end
  else Ok None.

(** [Clone], src/macros.rs:147-156. *)
Fixpoint os_gets (s : ostruct) (i : N) (k : nat) : out (list (option V)) :=
  match k with
  | O => Ok []
  | S k =>
      match os_get s i with
      | Ok v => out_map (cons v) (os_gets s (i + 1) k)
      | Err e => Err e
      | Panic => Panic
      | Fuel => Fuel
      end
  end.

Definition os_clone (bits : N) (s : ostruct) : out ostruct :=
  match os_gets s 0 (length (os_fields s)) with
  | Ok vals => os_new bits vals
  | Err e => Err e
  | Panic => Panic
  | Fuel => Fuel
  end.

(** [Default], src/macros.rs:176-185, for [n] fields. *)
Definition os_default (n : nat) : ostruct := mkOs 0 (repeat None n).

(** [Drop], src/macros.rs:197-208: the values dropped, in order. *)
Fixpoint os_drops (s : ostruct) (i : N) (k : nat) : out (list V) :=
  match k with
  | O => Ok []
  | S k =>
      if os_flag s i then
        match os_slot s i with
        | Ok v => out_map (cons v) (os_drops s (i + 1) k)
        | Err e => Err e
        | Panic => Panic
        | Fuel => Fuel
        end
      else os_drops s (i + 1) k
  end.

Definition os_drop (s : ostruct) : out (list V) := os_drops s 0 (length (os_fields s)).

End OptStruct.
Arguments ostruct : clear implicits.

(** Field values of [SampleId] and [Sample]. *)
Inductive fval : Type :=
| FInt (n : N)
| FGroup (g : read_group cow)
| FWords (c : cow N)
| FBytes (c : cow N)
| FBranches (c : cow branch_entry)
| FRegs (r : registers cow).

(** The arguments of [SampleId::new], src/records/mod.rs:57-67, flag type [u8]. *)
Definition sample_id_fields (s : sample_id) : list (option fval) :=
  [option_map FInt (si_pid s); option_map FInt (si_tid s); option_map FInt (si_time s);
   option_map FInt (si_id s); option_map FInt (si_stream_id s); option_map FInt (si_cpu s)].
Definition sample_id_struct (s : sample_id) : out (ostruct fval) :=
  os_new 8 (sample_id_fields s).

(** The arguments of [Sample::new], src/records/sample.rs:24-53, flag type [u32]. *)
Definition sample_fields (s : sample cow) : list (option fval) :=
  [option_map FInt (s_ip s); option_map FInt (s_pid s); option_map FInt (s_tid s);
   option_map FInt (s_time s); option_map FInt (s_addr s); option_map FInt (s_id s);
   option_map FInt (s_stream_id s); option_map FInt (s_cpu s); option_map FInt (s_period s);
   option_map FGroup (s_values s); option_map FWords (s_callchain s);
   option_map FBytes (s_raw s); option_map FInt (s_lbr_hw_index s);
   option_map FBranches (s_lbr s); option_map FRegs (s_regs_user s);
   option_map FBytes (s_stack_user s); option_map FInt (s_weight s);
   option_map FInt (s_data_src s); option_map FInt (s_transaction s);
   option_map FRegs (s_regs_intr s); option_map FInt (s_phys_addr s);
   option_map FBytes (s_aux s); option_map FInt (s_cgroup s);
   option_map FInt (s_data_page_size s); option_map FInt (s_code_page_size s)].
Definition sample_struct (s : sample cow) : out (ostruct fval) :=
  os_new 32 (sample_fields s).

(** The accessors of [SampleId], src/records/mod.rs:96-127: the macro's accessor
    of the field of that name, src/records/mod.rs:57-67. *)
Definition id_get_pid (o : ostruct fval) : out (option fval) := os_get o 0.
Definition id_get_tid (o : ostruct fval) : out (option fval) := os_get o 1.
Definition id_get_time (o : ostruct fval) : out (option fval) := os_get o 2.
Definition id_get_id (o : ostruct fval) : out (option fval) := os_get o 3.
Definition id_get_stream_id (o : ostruct fval) : out (option fval) := os_get o 4.
Definition id_get_cpu (o : ostruct fval) : out (option fval) := os_get o 5.

(** The accessors of [Sample], src/records/sample.rs:66-167: the macro's accessor
    of the field of that name, src/records/sample.rs:24-53. *)
Definition sample_get_ip (o : ostruct fval) : out (option fval) := os_get o 0.
Definition sample_get_pid (o : ostruct fval) : out (option fval) := os_get o 1.
Definition sample_get_tid (o : ostruct fval) : out (option fval) := os_get o 2.
Definition sample_get_time (o : ostruct fval) : out (option fval) := os_get o 3.
Definition sample_get_addr (o : ostruct fval) : out (option fval) := os_get o 4.
Definition sample_get_id (o : ostruct fval) : out (option fval) := os_get o 5.
Definition sample_get_stream_id (o : ostruct fval) : out (option fval) := os_get o 6.
Definition sample_get_cpu (o : ostruct fval) : out (option fval) := os_get o 7.
Definition sample_get_period (o : ostruct fval) : out (option fval) := os_get o 8.
Definition sample_get_values (o : ostruct fval) : out (option fval) := os_get o 9.
Definition sample_get_callchain (o : ostruct fval) : out (option fval) := os_get o 10.
Definition sample_get_raw (o : ostruct fval) : out (option fval) := os_get o 11.
Definition sample_get_lbr_hw_index (o : ostruct fval) : out (option fval) := os_get o 12.
Definition sample_get_lbr (o : ostruct fval) : out (option fval) := os_get o 13.
Definition sample_get_regs_user (o : ostruct fval) : out (option fval) := os_get o 14.
Definition sample_get_stack_user (o : ostruct fval) : out (option fval) := os_get o 15.
Definition sample_get_weight (o : ostruct fval) : out (option fval) := os_get o 16.
Definition sample_get_data_src (o : ostruct fval) : out (option fval) := os_get o 17.
Definition sample_get_transaction (o : ostruct fval) : out (option fval) := os_get o 18.
Definition sample_get_regs_intr (o : ostruct fval) : out (option fval) := os_get o 19.
Definition sample_get_phys_addr (o : ostruct fval) : out (option fval) := os_get o 20.
Definition sample_get_aux (o : ostruct fval) : out (option fval) := os_get o 21.
Definition sample_get_cgroup (o : ostruct fval) : out (option fval) := os_get o 22.
Definition sample_get_data_page_size (o : ostruct fval) : out (option fval) := os_get o 23.
Definition sample_get_code_page_size (o : ostruct fval) : out (option fval) := os_get o 24.
