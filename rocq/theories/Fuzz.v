(** The fuzz targets of the crate (fuzz/fuzz_targets) and the [Arbitrary] impls they use.

    [Unstructured] and the impls for integers are those of the crate [arbitrary] 1: an
    integer takes as many bytes as it has, little endian, zeros if the data runs out; nothing
    of this fails.  [#[derive(Arbitrary)]] takes the fields in turn. *)
From Coq Require Import NArith List Bool.
From Verif Require Import Base Types Platform Config Buf Parser Records Sample Record.
Import ListNotations.
Open Scope N_scope.

(** [Unstructured]: what is left of a slice.  [None] is [Err]. *)
Definition arb (A : Type) : Type := slice -> option (A * slice).

Definition fill_buffer (n : N) (u : slice) : list N * slice :=
  let k := N.min n (len (sl_data u)) in
  (take k (sl_data u) ++ repeat 0 (N.to_nat (n - k)), mkSlice (sl_addr u + k) (drop k (sl_data u))).

Definition arb_u64 : arb N :=
  fun u => let '(b, u') := fill_buffer 8 u in Some (from_le b, u').

(** [Arbitrary for ConfigFlags], src/config.rs:258-262; [SampleFlags] and [ReadFormat],
    src/flags.rs:103-113: any bits at all. *)
Definition arb_config_flags : arb N := arb_u64.
Definition arb_sample_flags : arb N := arb_u64.
Definition arb_read_format : arb N := arb_u64.

(** [RawParseConfig] (derived, src/config.rs:110-116) and [ParseConfig], src/config.rs:249-256;
    [e] is [E::default()]. *)
Definition arb_config (e : endian) : arb config :=
  fun u =>
    match arb_config_flags u with
    | None => None
    | Some (f, u1) =>
        match arb_u64 u1 with
        | None => None
        | Some (ru, u2) =>
            match arb_u64 u2 with
            | None => None
            | Some (ri, u3) => Some (mkConfig f ru ri e, u3)
            end
        end
    end.

(** [ParseVisitor], fuzz/fuzz_targets/fuzz_record.rs:19-25. *)
Definition parse_visitor : visitor unit :=
  mkVisitor (fun _ => Ok tt) None None None None None None None None None None None None None None
    None None None None None None None None.

(** [let _ = ...]: only a panic is seen. *)
Definition ignored {A : Type} (r : out A) : out unit :=
  match r with Ok _ | Err _ => Ok tt | Panic => Panic | Fuel => Fuel end.

(** fuzz/fuzz_targets/fuzz_record.rs:9-17. *)
Definition fuzz_record (pl : platform) (data : slice) : out unit :=
  match arb_config Little data with
  | None => Ok tt
  | Some (c, rest) => ignored (fst (parse_record pl slice_buf parse_visitor (new_parser rest c)))
  end.

(** fuzz/fuzz_targets/fuzz_record_basic.rs:8-12. *)
Definition fuzz_record_basic (pl : platform) (data : slice) : out unit :=
  ignored (fst (parse_record pl slice_buf parse_visitor (new_parser data (config_default Little)))).
