(** Back from what was read to the bytes: the layout (Accept.v) that a record must have had, from
    the record as it was decoded, its metadata and its size.

    What a decoded record does not tell is left open in it: the bytes of a user stack behind the part
    in use, of which there are [t]; padding; the identifier if it is there twice; the reserved half of the
    cpu number; the three reserved bytes before a build id; the upper halves of counts where pointers have
    32 bits; and whatever is between the fields and the sample_id.

    Like Accept.v this is independent of the parser model. *)
From Coq Require Import NArith List Bool.
From Verif Require Import Base Platform Records Sample Record Attr Wire Accept.
Import ListNotations.
Open Scope N_scope.

Section Picture.
Context (bits : N) (o : order) (w : settings).

(** The words of one counter of a group. *)
Definition counter_size : N := 1 + (if rbit w 2 then 1 else 0) + (if rbit w 4 then 1 else 0).

(** The values of a sample, which are kept as a group also if they were not one. *)
Definition p_values (g : read_group list) : layout :=
  let times := w_if (rbit w 0) (w64 o (rg_enabled g)) ++ w_if (rbit w 1) (w64 o (rg_running g)) in
  if rbit w 3
  then l_count bits o (len (rg_data g) / counter_size) ++ just (times ++ w_list (w64 o) (rg_data g))
  else just (w_list (w64 o) (take 1 (rg_data g)) ++ times ++ w_list (w64 o) (drop 1 (rg_data g))).

(** A stack of which [d] was in use, and [t] bytes were not. *)
Definition p_stack (d : list N) (t : N) : layout :=
  l_count bits o (len d + t) ++ just d ++ any t ++
  l_if (negb (len d + t =? 0)) (l_count bits o (len d)).

(** What comes before the stack, and after. *)
Definition p_before (s : sample list) : layout :=
  l_twice o (sbit w 16) (sbit w 6) (s_id s) ++
  just (w_if (sbit w 0) (w64 o (val (s_ip s))) ++
        w_if (sbit w 1) (w32 o (val (s_pid s)) ++ w32 o (val (s_tid s))) ++
        w_if (sbit w 2) (w64 o (val (s_time s))) ++
        w_if (sbit w 3) (w64 o (val (s_addr s))) ++
        w_if (sbit w 6) (w64 o (val (s_id s))) ++
        w_if (sbit w 9) (w64 o (val (s_stream_id s)))) ++
  l_cpu o (sbit w 7) (s_cpu s) ++
  just (w_if (sbit w 8) (w64 o (val (s_period s)))) ++
  l_opt (s_values s) p_values ++
  l_opt (s_callchain s) (fun l => l_count bits o (len l) ++ just (w_list (w64 o) l)) ++
  l_opt (s_raw s) (l_raw o) ++
  l_opt (s_lbr s)
    (fun l => l_count bits o (len l) ++ just (w_if (ws_hw_index w) (w64 o (val (s_lbr_hw_index s))) ++
              w_list (w_branch o) l)) ++
  l_opt (s_regs_user s) (l_regs o).
Definition p_after (s : sample list) : layout :=
  just (w_if (sbit w 14) (w64 o (val (s_weight s))) ++
        w_if (sbit w 15) (w64 o (val (s_data_src s))) ++
        w_if (sbit w 17) (w64 o (val (s_transaction s)))) ++
  l_opt (s_regs_intr s) (l_regs o) ++
  just (w_if (sbit w 19) (w64 o (val (s_phys_addr s))) ++
        w_if (sbit w 21) (w64 o (val (s_cgroup s))) ++
        w_if (sbit w 22) (w64 o (val (s_data_page_size s))) ++
        w_if (sbit w 23) (w64 o (val (s_code_page_size s)))) ++
  l_opt (s_aux s) (fun d => l_count bits o (len d) ++ just d).
Definition p_sample (s : sample list) (t : N) : layout :=
  p_before s ++ l_opt (s_stack_user s) (fun d => p_stack d t) ++ p_after s.

(** The other records, of type [ty], with [k] zeros at the end of a string. *)
Definition back (ty : N) (v : body list) (k : N) : wbody :=
  match v with
  | BMmap r => WMmap r k
  | BLost r => WLost r
  | BComm r => WComm r k
  | BExit r => WExit r
  | BThrottle r => WThrottle r
  | BUnthrottle r => WUnthrottle r
  | BFork r => WFork r
  | BRead r => WRead r
  | BSample s => WSample (mkSampleWire s None [])
  | BMmap2 r => WMmap2 r k
  | BAux r => WAux r
  | BItraceStart r => WItraceStart r
  | BLostSamples r => WLostSamples r
  | BSwitch => WSwitch
  | BSwitchCpuWide r => WSwitchCpuWide r
  | BNamespaces r => WNamespaces r
  | BKsymbol r => WKsymbol r k
  | BBpfEvent r => WBpfEvent r
  | BCgroup r => WCgroup r k
  | BTextPoke r => WTextPoke r
  | BAuxOutputHwId r => WAuxOutputHwId r
  | BUnknown d => WOther ty d
  end.

(** A body with [room] for it: a string is filled up with zeros. *)
Definition p_body (ty : N) (v : body list) (room t : N) : layout :=
  match v with
  | BSample s => p_sample s t
  | _ => concat (map fst (l_body bits o o w (back ty v (room - len (w_body o w (back ty v 0))))))
  end.

Definition p_id (md : metadata) : layout :=
  if (md_ty md =? 1) || (md_ty md =? 9) then [] else l_sample_id o w (md_sample_id md).

(** A record of [n] bytes. *)
Definition picture (v : body list) (md : metadata) (n t : N) : layout :=
  let room := n - 8 - len (p_id md) in
  let body := p_body (md_ty md) v room t in
  just (w_header o (md_ty md) (md_misc md) n) ++ body ++ any (room - len body) ++ p_id md.

(** A layout with nothing left open. *)
Definition filled (q : layout) : Prop := Forall (fun x => x <> None) q.
End Picture.
