(** The contents of what the crate returns, forgetting who owns the memory, and
    the condition that borrows are of memory holding those contents. *)
From Coq Require Import NArith List Bool.
From Verif Require Import Base Types Platform Contract Flat Refine Records Sample Record.
Import ListNotations.
Open Scope N_scope.

Definition view_mmap (r : mmap cow) : mmap list :=
  mkMmap (mm_pid r) (mm_tid r) (mm_addr r) (mm_len r) (mm_pgoff r) (cow_list (mm_filename r)).
Definition view_mmap2 (r : mmap2 cow) : mmap2 list :=
  mkMmap2 (m2_pid r) (m2_tid r) (m2_addr r) (m2_len r) (m2_pgoff r) (m2_detail r) (m2_prot r)
    (m2_flags r) (cow_list (m2_filename r)).
Definition view_comm (r : comm cow) : comm list :=
  mkComm (cm_pid r) (cm_tid r) (cow_list (cm_comm r)).
Definition view_ksymbol (r : ksymbol cow) : ksymbol list :=
  mkKsymbol (ks_addr r) (ks_len r) (ks_type r) (ks_flags r) (cow_list (ks_name r)).
Definition view_cgroup (r : cgroup cow) : cgroup list :=
  mkCgroup (cg_id r) (cow_list (cg_path r)).
Definition view_text_poke (r : text_poke cow) : text_poke list :=
  mkTextPoke (tp_addr r) (cow_list (tp_old r)) (cow_list (tp_new r)).
Definition view_namespaces (r : namespaces cow) : namespaces list :=
  mkNamespaces (nss_pid r) (nss_tid r) (cow_list (nss_entries r)).
Definition view_read_group (r : read_group cow) : read_group list :=
  mkReadGroup (rg_format r) (rg_enabled r) (rg_running r) (cow_list (rg_data r)).
Definition view_registers (r : registers cow) : registers list :=
  mkRegs (rg_abi r) (rg_mask r) (cow_list (rg_regs r)).
Definition view_sample (s : sample cow) : sample list :=
  mkSample (s_ip s) (s_pid s) (s_tid s) (s_time s) (s_addr s) (s_id s) (s_stream_id s)
    (s_cpu s) (s_period s) (option_map view_read_group (s_values s))
    (option_map cow_list (s_callchain s)) (option_map cow_list (s_raw s)) (s_lbr_hw_index s)
    (option_map cow_list (s_lbr s)) (option_map view_registers (s_regs_user s))
    (option_map cow_list (s_stack_user s)) (s_weight s) (s_data_src s) (s_transaction s)
    (option_map view_registers (s_regs_intr s)) (s_phys_addr s) (option_map cow_list (s_aux s))
    (s_cgroup s) (s_data_page_size s) (s_code_page_size s).

Definition view_body (b : body cow) : body list :=
  match b with
  | BMmap r => BMmap (view_mmap r)
  | BLost r => BLost r
  | BComm r => BComm (view_comm r)
  | BExit r => BExit r
  | BThrottle r => BThrottle r
  | BUnthrottle r => BUnthrottle r
  | BFork r => BFork r
  | BRead r => BRead r
  | BSample r => BSample (view_sample r)
  | BMmap2 r => BMmap2 (view_mmap2 r)
  | BAux r => BAux r
  | BItraceStart r => BItraceStart r
  | BLostSamples r => BLostSamples r
  | BSwitch => BSwitch
  | BSwitchCpuWide r => BSwitchCpuWide r
  | BNamespaces r => BNamespaces (view_namespaces r)
  | BKsymbol r => BKsymbol (view_ksymbol r)
  | BBpfEvent r => BBpfEvent r
  | BCgroup r => BCgroup (view_cgroup r)
  | BTextPoke r => BTextPoke (view_text_poke r)
  | BAuxOutputHwId r => BAuxOutputHwId r
  | BUnknown d => BUnknown (cow_list d)
  end.

Definition view_record (r : record cow) : record list :=
  match r with
  | RBody b => RBody (view_body b)
  | RUnknown t d => RUnknown t (cow_list d)
  end.

Definition opt_ok {A : Type} (P : A -> Prop) (o : option A) : Prop :=
  match o with Some a => P a | None => True end.

Section Ok.
Context (mo : mode) (mem : memory) (pl : platform).

Definition ok_mmap (r : mmap cow) : Prop := bok mo mem (mm_filename r).
Definition ok_mmap2 (r : mmap2 cow) : Prop := bok mo mem (m2_filename r).
Definition ok_comm (r : comm cow) : Prop := bok mo mem (cm_comm r).
Definition ok_ksymbol (r : ksymbol cow) : Prop := bok mo mem (ks_name r).
Definition ok_cgroup (r : cgroup cow) : Prop := bok mo mem (cg_path r).
Definition ok_text_poke (r : text_poke cow) : Prop :=
  bok mo mem (tp_old r) /\ bok mo mem (tp_new r).
Definition ok_namespaces (r : namespaces cow) : Prop := sok mem pl fl_ns (nss_entries r).
Definition ok_read_group (r : read_group cow) : Prop := sok mem pl fl_u64 (rg_data r).
Definition ok_registers (r : registers cow) : Prop := sok mem pl fl_u64 (rg_regs r).
Definition ok_sample (s : sample cow) : Prop :=
  opt_ok ok_read_group (s_values s) /\ opt_ok (sok mem pl fl_u64) (s_callchain s) /\
  opt_ok (bok mo mem) (s_raw s) /\ opt_ok (sok mem pl fl_branch) (s_lbr s) /\
  opt_ok ok_registers (s_regs_user s) /\ opt_ok (bok mo mem) (s_stack_user s) /\
  opt_ok ok_registers (s_regs_intr s) /\ opt_ok (bok mo mem) (s_aux s).

Definition ok_body (b : body cow) : Prop :=
  match b with
  | BMmap r => ok_mmap r
  | BComm r => ok_comm r
  | BSample r => ok_sample r
  | BMmap2 r => ok_mmap2 r
  | BNamespaces r => ok_namespaces r
  | BKsymbol r => ok_ksymbol r
  | BCgroup r => ok_cgroup r
  | BTextPoke r => ok_text_poke r
  | BUnknown d => bok mo mem d
  | _ => True
  end.
End Ok.

Lemma bok_whole : forall mo mem c, bok Whole mem c -> bok mo mem c.
Proof. intros mo mem [x l|l] H; cbn in *; [assumption|congruence]. Qed.

Lemma opt_ok_impl : forall A (P Q : A -> Prop) o, (forall a, P a -> Q a) -> opt_ok P o -> opt_ok Q o.
Proof. intros A P Q [a|] H; cbn; auto. Qed.

Lemma ok_body_whole : forall mo mem pl b, ok_body Whole mem pl b -> ok_body mo mem pl b.
Proof.
  intros mo mem pl [] H; cbn in *; try exact I; try (eapply bok_whole; exact H); try assumption.
  - destruct H as (H1 & H2 & H3 & H4 & H5 & H6 & H7 & H8).
    repeat split; try assumption; eapply opt_ok_impl; try eassumption; apply bok_whole.
  - destruct H; split; now apply bok_whole.
Qed.
