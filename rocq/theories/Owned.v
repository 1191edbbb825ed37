(** The [into_owned] methods of the records. *)
From Coq Require Import NArith List.
From Verif Require Import Base Types Records.
Open Scope N_scope.

(** src/records/cgroup.rs:33-38. *)
Definition cgroup_into_owned (r : cgroup cow) : cgroup cow :=
  mkCgroup (cg_id r) (cow_into_owned (cg_path r)).

(** src/records/comm.rs:49-54. *)
Definition comm_into_owned (r : comm cow) : comm cow :=
  mkComm (cm_pid r) (cm_tid r) (cow_into_owned (cm_comm r)).

(** src/records/ksymbol.rs:28-33. *)
Definition ksymbol_into_owned (r : ksymbol cow) : ksymbol cow :=
  mkKsymbol (ks_addr r) (ks_len r) (ks_type r) (ks_flags r) (cow_into_owned (ks_name r)).

(** src/records/mmap.rs:68-73. *)
Definition mmap_into_owned (r : mmap cow) : mmap cow :=
  mkMmap (mm_pid r) (mm_tid r) (mm_addr r) (mm_len r) (mm_pgoff r)
    (cow_into_owned (mm_filename r)).

(** src/records/mmap2.rs:157-162. *)
Definition mmap2_into_owned (r : mmap2 cow) : mmap2 cow :=
  mkMmap2 (m2_pid r) (m2_tid r) (m2_addr r) (m2_len r) (m2_pgoff r) (m2_detail r) (m2_prot r)
    (m2_flags r) (cow_into_owned (m2_filename r)).

(** src/records/read.rs:147-152. *)
Definition group_into_owned (r : read_group cow) : read_group cow :=
  mkReadGroup (rg_format r) (rg_enabled r) (rg_running r) (cow_into_owned (rg_data r)).

(** src/records/text_poke.rs:26-32 ([to_owned]). *)
Definition text_poke_to_owned (r : text_poke cow) : text_poke cow :=
  mkTextPoke (tp_addr r) (cow_into_owned (tp_old r)) (cow_into_owned (tp_new r)).
