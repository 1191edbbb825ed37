(** [struct perf_event_attr] as the kernel lays it out, from
    include/uapi/linux/perf_event.h. *)
From Coq Require Import NArith List Bool.
From Verif Require Import Base Platform Attr Wire.
Import ListNotations.
Open Scope N_scope.

(** The 136 bytes of version 8.  [r2] and [r3] are the reserved fields. *)
Definition w_attr_struct (o : order) (a : attr) (r2 r3 : N) : list N :=
  w32 o (at_type a) ++ w32 o (at_size a) ++ w64 o (at_config a) ++ w64 o (at_sample_period a) ++
  w64 o (at_sample_type a) ++ w64 o (at_read_format a) ++ w64 o (at_bits a) ++
  w32 o (at_wakeup_events a) ++ w32 o (at_bp_type a) ++ w64 o (at_config1 a) ++
  w64 o (at_config2 a) ++ w64 o (at_branch_sample_type a) ++
  w64 o (at_sample_regs_user a) ++ w32 o (at_sample_stack_user a) ++ w32 o (at_clockid a) ++
  w64 o (at_sample_regs_intr a) ++
  w32 o (at_aux_watermark a) ++ w16 o (at_sample_max_stack a) ++ w16 o r2 ++
  w32 o (at_aux_sample_size a) ++ w32 o r3 ++
  w64 o (at_sig_data a) ++ w64 o (at_config3 a).

(** An attr of [at_size a] bytes: the struct cut at its size, or extended by
    [ext]. *)
Definition w_attr (o : order) (a : attr) (r2 r3 : N) (ext : list N) : list N :=
  take (at_size a) (w_attr_struct o a r2 r3) ++ ext.

Definition versions : list N := [64; 72; 80; 96; 104; 112; 120; 128; 136].

(** Values that fit the fields, a size there is, and an extension of the right
    length. *)
Definition attr_ok (a : attr) (r2 r3 : N) (ext : list N) : Prop :=
  at_type a < 2 ^ 32 /\ at_size a < 2 ^ 32 /\ at_config a < 2 ^ 64 /\ at_sample_period a < 2 ^ 64 /\
  at_sample_type a < 2 ^ 64 /\ at_read_format a < 2 ^ 64 /\ at_bits a < 2 ^ 64 /\
  at_wakeup_events a < 2 ^ 32 /\ at_bp_type a < 2 ^ 32 /\ at_config1 a < 2 ^ 64 /\
  at_config2 a < 2 ^ 64 /\ at_branch_sample_type a < 2 ^ 64 /\
  at_sample_regs_user a < 2 ^ 64 /\ at_sample_stack_user a < 2 ^ 32 /\ at_clockid a < 2 ^ 32 /\
  at_sample_regs_intr a < 2 ^ 64 /\
  at_aux_watermark a < 2 ^ 32 /\ at_sample_max_stack a < 2 ^ 16 /\ r2 < 2 ^ 16 /\
  at_aux_sample_size a < 2 ^ 32 /\ r3 < 2 ^ 32 /\
  at_sig_data a < 2 ^ 64 /\ at_config3 a < 2 ^ 64 /\
  (In (at_size a) versions /\ ext = [] \/ 136 < at_size a /\ len ext = at_size a - 136).

(** What a reader knows of the attr: the fields which lie within its size, the
    others are zero.  Arguments of [kept]: offset and size of the field. *)
Definition attr_seen (a : attr) : attr :=
  let kept off w v := if off + w <=? at_size a then v else 0 in
  mkAttr (at_type a) (at_size a)
    (kept 8 8 (at_config a)) (kept 16 8 (at_sample_period a)) (kept 24 8 (at_sample_type a))
    (kept 32 8 (at_read_format a)) (kept 40 8 (at_bits a)) (kept 48 4 (at_wakeup_events a))
    (kept 52 4 (at_bp_type a)) (kept 56 8 (at_config1 a)) (kept 64 8 (at_config2 a))
    (kept 72 8 (at_branch_sample_type a)) (kept 80 8 (at_sample_regs_user a))
    (kept 88 4 (at_sample_stack_user a)) (kept 92 4 (at_clockid a)) (kept 96 8 (at_sample_regs_intr a))
    (kept 104 4 (at_aux_watermark a)) (kept 108 2 (at_sample_max_stack a))
    (kept 112 4 (at_aux_sample_size a)) (kept 120 8 (at_sig_data a)) (kept 128 8 (at_config3 a)).
