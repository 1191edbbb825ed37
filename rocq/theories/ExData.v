(** Concrete data for the examples beside the theorems. *)
From Coq Require Import NArith List Bool.
From Verif Require Import Base Types Platform Config Buf Parser Contract Records Sample Record Wire Spec.
Import ListNotations.
Open Scope N_scope.

Definition pl64 : platform := mkPlatform LE 64 Align8.
Definition pl32 : platform := mkPlatform LE 32 Align4.
Lemma platforms_ok : pl_ok pl64 /\ pl_ok pl32.
Proof. split; [now right|now left]. Qed.

(** Their [usize::MAX] and [isize::MAX]. *)
Lemma platform_limits :
  usize_max pl64 = 0xFFFFFFFFFFFFFFFF /\ isize_max pl64 = 0x7FFFFFFFFFFFFFFF /\
  usize_max pl32 = 0xFFFFFFFF /\ isize_max pl32 = 0x7FFFFFFF.
Proof. repeat split; reflexivity. Qed.

(** sample_type TID | TIME, sample_id_all, little-endian data. *)
Definition ex_cfg : config := mkConfig (cf_new 0 6 true false 0) 0 0 Little.
Definition ex_set : settings := mkSettings 6 0 true false 0 0.
Definition ex_id : sample_id := mkSampleId (Some 1234) (Some 1235) (Some 999) None None None.

(** The same without sample_id_all. *)
Definition ex_cfg0 : config := mkConfig (cf_new 0 6 false false 0) 0 0 Little.
Definition ex_set0 : settings := mkSettings 6 0 false false 0 0.

Definition ex_lost : list N := w_record LE ex_set 1 ex_id (WLost (mkLost 7 9)).

(** A parser over memory holding [d] at address [a]. *)
Definition on_slice (a : N) (d : list N) (c : config) : parser slice := new_parser (mkSlice a d) c.

Definition reader_of (rs : list (list N)) (c : config) : parser bufreader :=
  new_parser (mkReader [] rs None) c.
