(** Record framing, dispatch, visitors and the [Record] enum. *)
From Coq Require Import NArith List Bool.
From Verif Require Import Base Types Platform Config Buf Parser Records Sample.
Import ListNotations.
Open Scope N_scope.

(** [bindings::PERF_RECORD_*] as in linux/perf_event.h. *)
Definition PERF_RECORD_MMAP : N := 1.
Definition PERF_RECORD_LOST : N := 2.
Definition PERF_RECORD_COMM : N := 3.
Definition PERF_RECORD_EXIT : N := 4.
Definition PERF_RECORD_THROTTLE : N := 5.
Definition PERF_RECORD_UNTHROTTLE : N := 6.
Definition PERF_RECORD_FORK : N := 7.
Definition PERF_RECORD_READ : N := 8.
Definition PERF_RECORD_SAMPLE : N := 9.
Definition PERF_RECORD_MMAP2 : N := 10.
Definition PERF_RECORD_AUX : N := 11.
Definition PERF_RECORD_ITRACE_START : N := 12.
Definition PERF_RECORD_LOST_SAMPLES : N := 13.
Definition PERF_RECORD_SWITCH : N := 14.
Definition PERF_RECORD_SWITCH_CPU_WIDE : N := 15.
Definition PERF_RECORD_NAMESPACES : N := 16.
Definition PERF_RECORD_KSYMBOL : N := 17.
Definition PERF_RECORD_BPF_EVENT : N := 18.
Definition PERF_RECORD_CGROUP : N := 19.
Definition PERF_RECORD_TEXT_POKE : N := 20.
Definition PERF_RECORD_AUX_OUTPUT_HW_ID : N := 21.

(** [RecordMetadata], src/visitor.rs:12-27; the fields are what [ty], [misc] and
    [sample_id] (src/visitor.rs:30-50) return. *)
Record metadata : Type := mkMeta { md_ty : N; md_misc : N; md_sample_id : sample_id }.

Definition new_metadata (h : header) (si : sample_id) : metadata :=
  mkMeta (h_type h) (h_misc h) si.

(** A record body as it reaches a visitor method: one constructor per
    [visit_*] method of src/visitor.rs:76-218. *)
Inductive body (F : Type -> Type) : Type :=
| BMmap (r : mmap F)
| BLost (r : lost)
| BComm (r : comm F)
| BExit (r : exit)
| BThrottle (r : throttle)
| BUnthrottle (r : throttle)
| BFork (r : exit)
| BRead (r : read)
| BSample (r : sample F)
| BMmap2 (r : mmap2 F)
| BAux (r : aux)
| BItraceStart (r : itrace_start)
| BLostSamples (r : lost_samples)
| BSwitch
| BSwitchCpuWide (r : switch_cpu_wide)
| BNamespaces (r : namespaces F)
| BKsymbol (r : ksymbol F)
| BBpfEvent (r : bpf_event)
| BCgroup (r : cgroup F)
| BTextPoke (r : text_poke F)
| BAuxOutputHwId (r : aux_output_hw_id)
| BUnknown (data : F N).
Arguments BMmap {F} r. Arguments BLost {F} r. Arguments BComm {F} r. Arguments BExit {F} r.
Arguments BThrottle {F} r. Arguments BUnthrottle {F} r. Arguments BFork {F} r.
Arguments BRead {F} r. Arguments BSample {F} r. Arguments BMmap2 {F} r. Arguments BAux {F} r.
Arguments BItraceStart {F} r. Arguments BLostSamples {F} r. Arguments BSwitch {F}.
Arguments BSwitchCpuWide {F} r. Arguments BNamespaces {F} r. Arguments BKsymbol {F} r.
Arguments BBpfEvent {F} r. Arguments BCgroup {F} r. Arguments BTextPoke {F} r.
Arguments BAuxOutputHwId {F} r. Arguments BUnknown {F} data.

(** A visitor as the set of methods its [impl] overrides (src/visitor.rs:76-218).
    [visit_unimplemented] is mandatory.  Methods may panic. *)
Record visitor (O : Type) : Type := mkVisitor {
  v_unimplemented : metadata -> out O;
  v_mmap : option (mmap cow -> metadata -> out O);
  v_lost : option (lost -> metadata -> out O);
  v_comm : option (comm cow -> metadata -> out O);
  v_exit : option (exit -> metadata -> out O);
  v_throttle : option (throttle -> metadata -> out O);
  v_unthrottle : option (throttle -> metadata -> out O);
  v_fork : option (exit -> metadata -> out O);
  v_read : option (read -> metadata -> out O);
  v_sample : option (sample cow -> metadata -> out O);
  v_mmap2 : option (mmap2 cow -> metadata -> out O);
  v_aux : option (aux -> metadata -> out O);
  v_itrace_start : option (itrace_start -> metadata -> out O);
  v_lost_samples : option (lost_samples -> metadata -> out O);
  v_switch : option (metadata -> out O);
  v_switch_cpu_wide : option (switch_cpu_wide -> metadata -> out O);
  v_namespaces : option (namespaces cow -> metadata -> out O);
  v_ksymbol : option (ksymbol cow -> metadata -> out O);
  v_bpf_event : option (bpf_event -> metadata -> out O);
  v_cgroup : option (cgroup cow -> metadata -> out O);
  v_text_poke : option (text_poke cow -> metadata -> out O);
  v_aux_output_hw_id : option (aux_output_hw_id -> metadata -> out O);
  v_unknown : option (cow N -> metadata -> out O);
}.
Arguments mkVisitor {O}.
Arguments v_unimplemented {O} _ _. Arguments v_mmap {O} _. Arguments v_lost {O} _.
Arguments v_comm {O} _. Arguments v_exit {O} _. Arguments v_throttle {O} _.
Arguments v_unthrottle {O} _. Arguments v_fork {O} _. Arguments v_read {O} _.
Arguments v_sample {O} _. Arguments v_mmap2 {O} _. Arguments v_aux {O} _.
Arguments v_itrace_start {O} _. Arguments v_lost_samples {O} _. Arguments v_switch {O} _.
Arguments v_switch_cpu_wide {O} _. Arguments v_namespaces {O} _. Arguments v_ksymbol {O} _.
Arguments v_bpf_event {O} _. Arguments v_cgroup {O} _. Arguments v_text_poke {O} _.
Arguments v_aux_output_hw_id {O} _. Arguments v_unknown {O} _.

(** The provided (default) method bodies, src/visitor.rs:90-217. *)
Definition call {O R : Type} (V : visitor O) (m : option (R -> metadata -> out O))
  (r : R) (md : metadata) : out O :=
  match m with Some f => f r md | None => v_unimplemented V md end.

Definition visit_mmap {O} (V : visitor O) := call V (v_mmap V).
Definition visit_mmap2 {O} (V : visitor O) (r : mmap2 cow) (md : metadata) : out O :=
  match v_mmap2 V with Some f => f r md | None => visit_mmap V (into_mmap r) md end.
Definition visit_switch {O} (V : visitor O) (md : metadata) : out O :=
  match v_switch V with Some f => f md | None => v_unimplemented V md end.

Section Framing.
Context (pl : platform).

Section OnBuf.
Context {S : Type} (PB : parsebuf S).

(** [parse_metadata_with_header_impl], src/parse.rs:509-544, and
    [parse_metadata_with_header], src/parse.rs:546-552. *)
Definition parse_metadata_with_header (h : header) : M S (parser cursor * metadata) :=
  match checked_sub (h_size h) 8 with
  | None => fail (custom_error KInvalidRecord MsgHeaderTooSmall)
  | Some data_len =>
      rp <- split_at PB data_len ;;
      if (h_type h =? PERF_RECORD_MMAP) || (h_type h =? PERF_RECORD_SAMPLE)
      then ret (rp, new_metadata h sample_id_default)
      else
        match checked_sub data_len (estimate_len (p_cfg rp)) with
        | None => fail (custom_error KInvalidRecord MsgNoRoomForSampleId)
        | Some remaining_len =>
            r <- sub (p <- split_at cursor_buf remaining_len ;;
                      si <- parse_sample_id pl cursor_buf ;;
                      ret (p, si)) rp ;;
            ret (fst r, new_metadata h (snd r))
        end
  end.

(** [parse_metadata], src/parse.rs:502-507. *)
Definition parse_metadata : M S (parser cursor * metadata) :=
  h <- parse_header pl PB ;; parse_metadata_with_header h.

(** The [match] of [parse_record_impl], src/parse.rs:569-591.  Calling the visitor
    after [p.parse()?]. *)
Definition dispatch {O : Type} (V : visitor O) (md : metadata) : M S O :=
  let t := md_ty md in
  if t =? PERF_RECORD_MMAP then r <- parse_mmap pl PB ;; lift (visit_mmap V r md)
  else if t =? PERF_RECORD_LOST then r <- parse_lost pl PB ;; lift (call V (v_lost V) r md)
  else if t =? PERF_RECORD_COMM then r <- parse_comm pl PB ;; lift (call V (v_comm V) r md)
  else if t =? PERF_RECORD_EXIT then r <- parse_exit pl PB ;; lift (call V (v_exit V) r md)
  else if t =? PERF_RECORD_THROTTLE
    then r <- parse_throttle pl PB ;; lift (call V (v_throttle V) r md)
  else if t =? PERF_RECORD_UNTHROTTLE
    then r <- parse_throttle pl PB ;; lift (call V (v_unthrottle V) r md)
  else if t =? PERF_RECORD_FORK then r <- parse_exit pl PB ;; lift (call V (v_fork V) r md)
  else if t =? PERF_RECORD_READ then r <- parse_read pl PB ;; lift (call V (v_read V) r md)
  else if t =? PERF_RECORD_SAMPLE
    then r <- parse_sample pl PB ;; lift (call V (v_sample V) r md)
  else if t =? PERF_RECORD_MMAP2 then r <- parse_mmap2 pl PB ;; lift (visit_mmap2 V r md)
  else if t =? PERF_RECORD_AUX then r <- parse_aux pl PB ;; lift (call V (v_aux V) r md)
  else if t =? PERF_RECORD_ITRACE_START
    then r <- parse_itrace_start pl PB ;; lift (call V (v_itrace_start V) r md)
  else if t =? PERF_RECORD_LOST_SAMPLES
    then r <- parse_lost_samples pl PB ;; lift (call V (v_lost_samples V) r md)
  else if t =? PERF_RECORD_SWITCH_CPU_WIDE
    then r <- parse_switch_cpu_wide pl PB ;; lift (call V (v_switch_cpu_wide V) r md)
  else if t =? PERF_RECORD_NAMESPACES
    then r <- parse_namespaces pl PB ;; lift (call V (v_namespaces V) r md)
  else if t =? PERF_RECORD_KSYMBOL
    then r <- parse_ksymbol pl PB ;; lift (call V (v_ksymbol V) r md)
  else if t =? PERF_RECORD_BPF_EVENT
    then r <- parse_bpf_event pl PB ;; lift (call V (v_bpf_event V) r md)
  else if t =? PERF_RECORD_CGROUP
    then r <- parse_cgroup pl PB ;; lift (call V (v_cgroup V) r md)
  else if t =? PERF_RECORD_TEXT_POKE
    then r <- parse_text_poke pl PB ;; lift (call V (v_text_poke V) r md)
  else if t =? PERF_RECORD_AUX_OUTPUT_HW_ID
    then r <- parse_aux_output_hw_id pl PB ;; lift (call V (v_aux_output_hw_id V) r md)
  else r <- parse_rest PB ;; lift (call V (v_unknown V) r md).

End OnBuf.

(** [parse_record_impl], src/parse.rs:560-592: runs on a parser by value, with
    the header's misc put in the configuration; the result and the reservations
    are all that is left of it. *)
Definition parse_record_impl {S T O : Type} (PB : parsebuf S) (V : visitor O)
  (md : metadata) (s : S) (c : config) : M T O :=
  sub (dispatch PB V md) (new_parser s (with_misc c (md_misc md))).

Section OnBuf2.
Context {S : Type} (PB : parsebuf S).

(** [parse_record_with_header], src/parse.rs:596-614. *)
Definition parse_record_with_header {O : Type} (V : visitor O) (h : header) : M S O :=
  r <- parse_metadata_with_header PB h ;;
  let '(p, md) := r in
  match cursor_as_slice (p_buf p) with
  | Some data => parse_record_impl slice_buf V md data (p_cfg p)
  | None => parse_record_impl cursor_buf V md (p_buf p) (p_cfg p)
  end.

(** [parse_record], src/parse.rs:555-558. *)
Definition parse_record {O : Type} (V : visitor O) : M S O :=
  h <- parse_header pl PB ;; parse_record_with_header V h.

End OnBuf2.
End Framing.

(** [Record], src/records/mod.rs:209-246: the variants are those of [body],
    with the type number added to [Unknown]. *)
Inductive record (F : Type -> Type) : Type :=
| RBody (b : body F)
| RUnknown (ty : N) (data : F N).
Arguments RBody {F} b.
Arguments RUnknown {F} ty data.

(** [RecordVisitor], src/records/mod.rs:290-400.  [record.into()] is one of the
    [From] impls of src/records/mod.rs:248-288: the variant of the same name. *)
Definition record_visitor : visitor (record cow) := {|
  v_unimplemented := fun _ => Panic;
  v_mmap := Some (fun r _ => Ok (RBody (BMmap r)));
  v_lost := Some (fun r _ => Ok (RBody (BLost r)));
  v_comm := Some (fun r _ => Ok (RBody (BComm r)));
  v_exit := Some (fun r _ => Ok (RBody (BExit r)));
  v_throttle := Some (fun r _ => Ok (RBody (BThrottle r)));
  v_unthrottle := Some (fun r _ => Ok (RBody (BUnthrottle r)));
  v_fork := Some (fun r _ => Ok (RBody (BFork r)));
  v_read := Some (fun r _ => Ok (RBody (BRead r)));
  v_sample := Some (fun r _ => Ok (RBody (BSample r)));
  v_mmap2 := Some (fun r _ => Ok (RBody (BMmap2 r)));
  v_aux := Some (fun r _ => Ok (RBody (BAux r)));
  v_itrace_start := Some (fun r _ => Ok (RBody (BItraceStart r)));
  v_lost_samples := Some (fun r _ => Ok (RBody (BLostSamples r)));
  v_switch := Some (fun _ => Ok (RBody BSwitch));
  v_switch_cpu_wide := Some (fun r _ => Ok (RBody (BSwitchCpuWide r)));
  v_namespaces := Some (fun r _ => Ok (RBody (BNamespaces r)));
  v_ksymbol := Some (fun r _ => Ok (RBody (BKsymbol r)));
  v_bpf_event := Some (fun r _ => Ok (RBody (BBpfEvent r)));
  v_cgroup := Some (fun r _ => Ok (RBody (BCgroup r)));
  v_text_poke := Some (fun r _ => Ok (RBody (BTextPoke r)));
  v_aux_output_hw_id := Some (fun r _ => Ok (RBody (BAuxOutputHwId r)));
  v_unknown := Some (fun d md => Ok (RUnknown (md_ty md) d));
|}.

(** [Record::parse_with_header], src/records/mod.rs:405-414. *)
Definition parse_record_enum_with_header (pl : platform) {S : Type} (PB : parsebuf S) (h : header)
  : M S (record cow) :=
  parse_record_with_header pl PB record_visitor h.

(** [Parse for Record], src/records/mod.rs:417-425. *)
Definition parse_record_enum (pl : platform) {S : Type} (PB : parsebuf S) : M S (record cow) :=
  parse_record pl PB record_visitor.
