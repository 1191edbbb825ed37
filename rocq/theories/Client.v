(** Programs written against the public interface of [Parser], like the [Parse] impls of
    custom types shown in src/parse.rs:28-96.

    A program sees the contents of what it is given, not addresses, and not whether they
    were borrowed.  Of the unsafe methods only [parse_slice] for [u64] is there.  The parser
    for the bytes of a record is used up before the next call of the outer one (they share
    nothing, so this only fixes an order). *)
From Coq Require Import NArith List Bool.
From Verif Require Import Base Types Platform Config Buf Parser Records Record Attr Views RefFrame.
Import ListNotations.
Open Scope N_scope.

Inductive prog : Type -> Type :=
| PRet : forall A, A -> prog A
| PThen : forall A B, prog A -> (A -> prog B) -> prog B
| PError : forall A, perror -> prog A
| PTry : forall A, prog A -> prog (perror + A)
| PConfig : prog config
| PU8 : prog N
| PU16 : prog N
| PU32 : prog N
| PU64 : prog N
| PArray : N -> prog (list N)
| PBytes : N -> prog (list N)
| PRest : prog (list N)
| PTrimmed : prog (list N)
| PIf : forall A, bool -> prog A -> prog (option A)
| PRepeat : forall A, N -> prog A -> N -> prog (list A)
| PSampleId : prog sample_id
| PAttr : prog attr
| PSlice : N -> prog (list N)
| PBody : N -> prog (body list)
| PRecord : header -> prog (body list * metadata)
| PMetadata : forall A, header -> (metadata -> prog A) -> prog A.

Arguments PRet {A}.
Arguments PThen {A B}.
Arguments PError {A}.
Arguments PTry {A}.
Arguments PIf {A}.
Arguments PRepeat {A}.
Arguments PMetadata {A}.

Declare Scope prog_scope.
Delimit Scope prog_scope with prog.
Notation "x <-- m ;;; k" := (PThen m (fun x => k)) (at level 61, m at next level, right associativity) : prog_scope.

(** [parse_repeated], src/parse.rs:488-495, for any [Parse] impl [m] of a type of [size] bytes
    (as in Parser.v, where the element type comes with more). *)
Definition parse_repeated_with {S A : Type} (pl : platform) (PB : parsebuf S) (size : N) (m : M S A) (n : N)
  : M S (list A) :=
  b <- safe_capacity_bound pl PB size ;;
  m_alloc pl (N.min n b * size) ;;;
  loop (fun '(n, vec) =>
    if n =? 0 then ret (inr vec)
    else x <- m ;; ret (inl (n - 1, vec ++ [x]))) (n, []).

(** A [perf_event_header] is two [u16] and a [u32]. *)
Definition header_of (h : header) : header :=
  mkHeader (h_type h mod 2 ^ 32) (h_misc h mod 2 ^ 16) (h_size h mod 2 ^ 16).

(** A visitor which keeps what it is given. *)
Definition keep : visitor (body list * metadata) := {|
  v_unimplemented := fun _ => Panic;
  v_mmap := Some (fun r md => Ok (BMmap (view_mmap r), md));
  v_lost := Some (fun r md => Ok (BLost r, md));
  v_comm := Some (fun r md => Ok (BComm (view_comm r), md));
  v_exit := Some (fun r md => Ok (BExit r, md));
  v_throttle := Some (fun r md => Ok (BThrottle r, md));
  v_unthrottle := Some (fun r md => Ok (BUnthrottle r, md));
  v_fork := Some (fun r md => Ok (BFork r, md));
  v_read := Some (fun r md => Ok (BRead r, md));
  v_sample := Some (fun r md => Ok (BSample (view_sample r), md));
  v_mmap2 := Some (fun r md => Ok (BMmap2 (view_mmap2 r), md));
  v_aux := Some (fun r md => Ok (BAux r, md));
  v_itrace_start := Some (fun r md => Ok (BItraceStart r, md));
  v_lost_samples := Some (fun r md => Ok (BLostSamples r, md));
  v_switch := Some (fun md => Ok (BSwitch, md));
  v_switch_cpu_wide := Some (fun r md => Ok (BSwitchCpuWide r, md));
  v_namespaces := Some (fun r md => Ok (BNamespaces (view_namespaces r), md));
  v_ksymbol := Some (fun r md => Ok (BKsymbol (view_ksymbol r), md));
  v_bpf_event := Some (fun r md => Ok (BBpfEvent r, md));
  v_cgroup := Some (fun r md => Ok (BCgroup (view_cgroup r), md));
  v_text_poke := Some (fun r md => Ok (BTextPoke (view_text_poke r), md));
  v_aux_output_hw_id := Some (fun r md => Ok (BAuxOutputHwId r, md));
  v_unknown := Some (fun d md => Ok (BUnknown (cow_list d), md));
|}.

(** What the program does with a parser.  Lengths are [usize]. *)
Fixpoint run (pl : platform) {A : Type} (m : prog A) : forall S, parsebuf S -> M S A :=
  match m in prog A return forall S, parsebuf S -> M S A with
  | PRet a => fun S PB => ret a
  | PThen m k => fun S PB => x <- run pl m S PB ;; run pl (k x) S PB
  | PError e => fun S PB => fail e
  | PTry m => fun S PB p =>
      match run pl m S PB p with
      | (Ok a, p') => (Ok (inr a), p')
      | (Err e, p') => (Ok (inl e), p')
      | (Panic, p') => (Panic, p')
      | (Fuel, p') => (Fuel, p')
      end
  | PConfig => fun S PB => get_cfg
  | PU8 => fun S PB => parse_u8 PB
  | PU16 => fun S PB => parse_u16 pl PB
  | PU32 => fun S PB => parse_u32 pl PB
  | PU64 => fun S PB => parse_u64 pl PB
  | PArray n => fun S PB => parse_array PB (as_usize pl n)
  | PBytes n => fun S PB => c <- parse_bytes pl PB (as_usize pl n) ;; ret (cow_list c)
  | PRest => fun S PB => c <- parse_rest PB ;; ret (cow_list c)
  | PTrimmed => fun S PB => c <- parse_rest_trim_nul PB ;; ret (cow_list c)
  | PIf b m => fun S PB => parse_if b (run pl m S PB)
  | PRepeat size m n => fun S PB => parse_repeated_with pl PB size (run pl m S PB) (as_usize pl n)
  | PSampleId => fun S PB => parse_sample_id pl PB
  | PAttr => fun S PB => parse_attr pl PB
  | PSlice n => fun S PB => c <- parse_slice pl PB (elem_u64 pl) (as_usize pl n) ;; ret (cow_list c)
  | PBody t => fun S PB => b <- parse_body pl PB t ;; ret (view_body b)
  | PRecord h => fun S PB => parse_record_with_header pl PB keep (header_of h)
  | PMetadata h k => fun S PB =>
      r <- parse_metadata_with_header pl PB (header_of h) ;;
      sub (run pl (k (snd r)) cursor cursor_buf) (fst r)
  end.

(** No array and no TEXT_POKE is asked for. *)
Fixpoint calm {A : Type} (m : prog A) : Prop :=
  match m with
  | PThen m k => calm m /\ forall x, calm (k x)
  | PTry m | PIf _ m | PRepeat _ m _ => calm m
  | PBody t => t <> 9 /\ t <> 16 /\ t <> 20
  | PRecord h => let t := h_type h mod 2 ^ 32 in t <> 9 /\ t <> 16 /\ t <> 20
  | PSlice _ => False
  | PMetadata _ k => forall md, calm (k md)
  | _ => True
  end.

(** The custom sample of src/parse.rs:47-74. *)
Record custom_sample : Type := mkCustom {
  cs_ip : N; cs_pid : N; cs_tid : N; cs_callstack : list N; cs_cgroup : N }.

Definition parse_custom : prog custom_sample :=
  (ip <-- PU64 ;;; pid <-- PU32 ;;; tid <-- PU32 ;;;
   n <-- PU64 ;;; callstack <-- PRepeat 8 PU64 n ;;;
   cgroup <-- PU64 ;;; PRet (mkCustom ip pid tid callstack cgroup))%prog.

(** [parse::<perf_event_header>()], then [parse_metadata_with_header]: [parse_metadata],
    src/parse.rs:502-507. *)
Definition parse_header_p : prog header :=
  (t <-- PU32 ;;; m <-- PU16 ;;; s <-- PU16 ;;; PRet (mkHeader t m s))%prog.
Definition parse_metadata_p {A : Type} (k : metadata -> prog A) : prog A :=
  (h <-- parse_header_p ;;; PMetadata h k)%prog.

(** [parse_record], src/parse.rs:555-558. *)
Definition parse_record_p : prog (body list * metadata) :=
  (h <-- parse_header_p ;;; PRecord h)%prog.

(** The example itself, src/parse.rs:78-83: the type is checked, then the sample is read. *)
Definition custom_example : prog (N * custom_sample) :=
  parse_metadata_p (fun md => s <-- parse_custom ;;; PRet (md_ty md, s))%prog.
