(** What a newer kernel appends to a record: more fields between the ones the crate knows and the sample_id (in a
    SAMPLE, and in an MMAP as the crate reads it, at the end).  Independent of the parser model. *)
From Coq Require Import NArith List Bool.
From Verif Require Import Base Platform Records Sample Record Wire.
Import ListNotations.
Open Scope N_scope.

(** Bytes of the sample_id behind a record of type [t]. *)
Definition tail_len (w : settings) (t : N) : N :=
  if (t =? 1) || (t =? 9) || negb (ws_id_all w) then 0
  else 8 * N.of_nat (length (filter (sbit w) [1; 2; 6; 7; 9; 16])).

(** The name a record ends in. *)
Definition name_of (v : body list) : option (list N) :=
  match v with
  | BMmap r => Some (mm_filename r)
  | BComm r => Some (cm_comm r)
  | BMmap2 r => Some (m2_filename r)
  | BKsymbol r => Some (ks_name r)
  | BCgroup r => Some (cg_path r)
  | _ => None
  end.

Definition renamed (v : body list) (s : list N) : body list :=
  match v with
  | BMmap r => BMmap (mkMmap (mm_pid r) (mm_tid r) (mm_addr r) (mm_len r) (mm_pgoff r) s)
  | BComm r => BComm (mkComm (cm_pid r) (cm_tid r) s)
  | BMmap2 r => BMmap2 (mkMmap2 (m2_pid r) (m2_tid r) (m2_addr r) (m2_len r) (m2_pgoff r) (m2_detail r) (m2_prot r) (m2_flags r) s)
  | BKsymbol r => BKsymbol (mkKsymbol (ks_addr r) (ks_len r) (ks_type r) (ks_flags r) s)
  | BCgroup r => BCgroup (mkCgroup (cg_id r) s)
  | v => v
  end.

(** What becomes of a record [v] when [extra] is appended to it: names go on, up to the zeros at their end, and the
    bytes of unknown records; nothing becomes of the others. *)
Definition grown (v : body list) (extra : list N) (v' : body list) : Prop :=
  match v with
  | BUnknown d => v' = BUnknown (d ++ extra)
  | _ => match name_of v with
         | Some s => exists k k' s', v' = renamed v s' /\ last s' 1 <> 0 /\
                       s' ++ repeat 0 k' = s ++ repeat 0 k ++ extra
         | None => v' = v
         end
  end.

(** A record and the same record with something appended, as byte strings. *)
Definition longer (o : order) (w : settings) (f f' : list N) (extra : list N) : Prop :=
  exists t m core tail, t < 2 ^ 32 /\ m < 2 ^ 16 /\
    f = w_header o t m (8 + len core + len tail) ++ core ++ tail /\
    f' = w_header o t m (8 + len core + len extra + len tail) ++ core ++ extra ++ tail /\
    len tail = tail_len w t /\ 8 + len core + len extra + len tail < 2 ^ 16.
