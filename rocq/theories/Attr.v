(** [perf_event_attr] parsing and the configuration derived from it. *)
From Coq Require Import NArith List Bool.
From Verif Require Import Base Types Platform Bitfield Config Buf Parser.
Import ListNotations.
Open Scope N_scope.

(** [perf_event_attr]; unions are represented by the member the crate writes,
    the bit fields by the numeric value of their u64.  The reserved fields are
    not stored by the crate. *)
Record attr : Type := mkAttr {
  at_type : N;
  at_size : N;
  at_config : N;
  at_sample_period : N;
  at_sample_type : N;
  at_read_format : N;
  at_bits : N;
  at_wakeup_events : N;
  at_bp_type : N;
  at_config1 : N;
  at_config2 : N;
  at_branch_sample_type : N;
  at_sample_regs_user : N;
  at_sample_stack_user : N;
  at_clockid : N;
  at_sample_regs_intr : N;
  at_aux_watermark : N;
  at_sample_max_stack : N;
  at_aux_sample_size : N;
  at_sig_data : N;
  at_config3 : N;
}.

(** [bindings::PERF_ATTR_SIZE_VER0..8]. *)
Definition PERF_ATTR_SIZE_VER0 : N := 64.
Definition PERF_ATTR_SIZE_VER1 : N := 72.
Definition PERF_ATTR_SIZE_VER2 : N := 80.
Definition PERF_ATTR_SIZE_VER3 : N := 96.
Definition PERF_ATTR_SIZE_VER4 : N := 104.
Definition PERF_ATTR_SIZE_VER5 : N := 112.
Definition PERF_ATTR_SIZE_VER6 : N := 120.
Definition PERF_ATTR_SIZE_VER7 : N := 128.
Definition PERF_ATTR_SIZE_VER8 : N := 136.
(** src/impls/perf_event_attr.rs:10. *)
Definition PERF_ATTR_SIZE_MAX : N := PERF_ATTR_SIZE_VER8.

(** The [match attr.size], src/impls/perf_event_attr.rs:25-42. *)
Definition attr_size_ok (size : N) : bool :=
  existsb (N.eqb size)
    [PERF_ATTR_SIZE_VER0; PERF_ATTR_SIZE_VER1; PERF_ATTR_SIZE_VER2; PERF_ATTR_SIZE_VER3;
     PERF_ATTR_SIZE_VER4; PERF_ATTR_SIZE_VER5; PERF_ATTR_SIZE_VER6; PERF_ATTR_SIZE_VER7;
     PERF_ATTR_SIZE_VER8]
  || (PERF_ATTR_SIZE_MAX <? size).

Section Fields.
Context (pl : platform) {S : Type} (PB : parsebuf S).

Let u16 := parse_u16 pl PB.
Let u32 := parse_u32 pl PB.
Let u64 := parse_u64 pl PB.

(** [if cond { field = p.parse()? }] on a zeroed struct. *)
Definition or0 (b : bool) (m : M S N) : M S N := if b then m else ret 0.

(** src/impls/perf_event_attr.rs:46-109.  [clockid] is i32, kept as its bits. *)
Definition parse_attr_fields (type size : N) : M S attr :=
  let v0 := PERF_ATTR_SIZE_VER0 <=? size in
  config <- or0 v0 u64 ;;
  sample_period <- or0 v0 u64 ;;
  sample_type <- or0 v0 u64 ;;
  read_format <- or0 v0 u64 ;;
  bits <- or0 v0 u64 ;;
  wakeup_events <- or0 v0 u32 ;;
  bp_type <- or0 v0 u32 ;;
  config1 <- or0 v0 u64 ;;
  config2 <- or0 (PERF_ATTR_SIZE_VER1 <=? size) u64 ;;
  branch_sample_type <- or0 (PERF_ATTR_SIZE_VER2 <=? size) u64 ;;
  let v3 := PERF_ATTR_SIZE_VER3 <=? size in
  sample_regs_user <- or0 v3 u64 ;;
  sample_stack_user <- or0 v3 u32 ;;
  clockid <- or0 v3 u32 ;;
  sample_regs_intr <- or0 (PERF_ATTR_SIZE_VER4 <=? size) u64 ;;
  let v5 := PERF_ATTR_SIZE_VER5 <=? size in
  aux_watermark <- or0 v5 u32 ;;
  sample_max_stack <- or0 v5 u16 ;;
  or0 v5 u16 ;;;
  let v6 := PERF_ATTR_SIZE_VER6 <=? size in
  aux_sample_size <- or0 v6 u32 ;;
  or0 v6 u32 ;;;
  sig_data <- or0 (PERF_ATTR_SIZE_VER7 <=? size) u64 ;;
  config3 <- or0 (PERF_ATTR_SIZE_VER8 <=? size) u64 ;;
  (if PERF_ATTR_SIZE_MAX <? size then
     rest <- parse_rest PB ;;
     if forallb (fun b => b =? 0) (cow_list rest) then ret tt
     else fail (custom_error KUnsupportedData MsgAttrTail)
   else ret tt) ;;;
  ret (mkAttr type size config sample_period sample_type read_format bits
         wakeup_events bp_type config1 config2 branch_sample_type sample_regs_user
         sample_stack_user clockid sample_regs_intr aux_watermark sample_max_stack
         aux_sample_size sig_data config3).

End Fields.

(** [Parse for perf_event_attr], src/impls/perf_event_attr.rs:12-111.  The
    subtraction on line 44 is [attr.size as usize - size_of_val(&attr.size)];
    underflow would panic in debug builds. *)
Definition parse_attr (pl : platform) {S : Type} (PB : parsebuf S) : M S attr :=
  type <- parse_u32 pl PB ;;
  size <- parse_u32 pl PB ;;
  if negb (attr_size_ok size) then fail (custom_error KInvalidRecord (MsgAttrSize size))
  else match checked_sub (as_usize pl size) 4 with
       | None => panic
       | Some n =>
           p <- split_at PB n ;;
           sub (parse_attr_fields pl cursor_buf type size) p
       end.

(** [attrs.sample_id_all() != 0] on a host of order [o].  [_bitfield_1] holds
    [u64::to_ne_bytes] of the parsed word (src/impls/perf_event_attr.rs:51);
    the flag is declared after 18 bits of other flags. *)
Definition at_sample_id_all (o : order) (a : attr) : bool :=
  negb (get_bits o (ne_bytes o (at_bits a)) 18 1 =? 0).

(** [bindings::PERF_SAMPLE_BRANCH_HW_INDEX]. *)
Definition PERF_SAMPLE_BRANCH_HW_INDEX : N := 2 ^ 17.

(** [From<perf_event_attr> for ParseConfig], src/config.rs:201-227; [e] is
    [E::default()] and [o] the byte order of the host. *)
Definition config_of_attr (o : order) (e : endian) (a : attr) : config :=
  mkConfig
    (cf_new (at_read_format a) (at_sample_type a) (at_sample_id_all o a)
       (negb (N.land (at_branch_sample_type a) PERF_SAMPLE_BRANCH_HW_INDEX =? 0)) 0)
    (at_sample_regs_user a) (at_sample_regs_intr a) e.
