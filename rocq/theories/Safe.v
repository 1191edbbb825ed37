(** Unconditional safety: whatever the bytes and the chunks are, parsing ends
    with [Ok] or [Err], does not read past the end, keeps the configuration and
    reserves a bounded amount of memory. *)
From Coq Require Import NArith List Bool Lia.
From Verif Require Import Base BaseFacts Types Platform Config Buf Parser Contract Flat Refine.
From Verif Require Import Instances Prims Slices Records Sample Record Attr Views RefRecords.
From Verif Require Import RefFrame RefTop Bits.
Import ListNotations.
Open Scope N_scope.

(** The kind that goes with a message, and what the numbers in it can be. *)
Definition proper (m : message) (k : error_kind) : Prop :=
  match m with
  | MsgSliceTooLong | MsgHeaderTooSmall | MsgNoRoomForSampleId | MsgGroupTooLarge | MsgDynSize =>
      k = KInvalidRecord
  | MsgBuildIdLen n => k = KInvalidRecord /\ 20 < n < 256
  | MsgAttrSize n =>
      k = KInvalidRecord /\ n <= 136 /\ ~ In n [64; 72; 80; 96; 104; 112; 120; 128; 136]
  | MsgSingleReadGroup | MsgGroupReadSingle | MsgReadFormatFlags => k = KUnsupportedConfig
  | MsgAttrTail => k = KUnsupportedData
  end.

(** The errors that can come out of a source ending with [fin]. *)
Definition err_ok (fin e : perror) : Prop :=
  e = fin \/ e = eof_error \/ exists k m, e = custom_error k m /\ proper m k.

Definition good {A : Type} (fin : perror) (Q : A -> Prop) (r : out A) : Prop :=
  match r with Ok a => Q a | Err e => err_ok fin e | Panic | Fuel => False end.

Definition any {A : Type} (a : A) : Prop := True.

Section Judgement.
Context {S : Type} (fin : perror) (cap : N) (rep : S -> list N -> N -> Prop) (a0 : N).

Definition Safe {A : Type} (Q : A -> Prop) (m : M S A) : Prop :=
  forall p l pos, rep (p_buf p) l (a0 + pos) -> wf l ->
  exists r p' l' pos', m p = (r, p') /\ good fin Q r /\ step cap rep a0 p l pos p' l' pos'.

Lemma Safe_ret : forall A (Q : A -> Prop) a, Q a -> Safe Q (ret a).
Proof.
  intros A Q a HQ p l pos Hr Hw. exists (Ok a), p, l, pos.
  split; [reflexivity|]. split; [exact HQ|now apply step_refl].
Qed.

Lemma Safe_fail : forall A (Q : A -> Prop) e, err_ok fin e -> Safe Q (fail e).
Proof.
  intros A Q e He p l pos Hr Hw. exists (Err e), p, l, pos.
  split; [reflexivity|]. split; [exact He|now apply step_refl].
Qed.

Lemma Safe_lift : forall A (Q : A -> Prop) o, good fin Q o -> Safe Q (lift o).
Proof.
  intros A Q o Ho p l pos Hr Hw. exists o, p, l, pos.
  split; [reflexivity|]. split; [exact Ho|now apply step_refl].
Qed.

Lemma Safe_bind : forall A B (Q : A -> Prop) (Q' : B -> Prop) m k,
  Safe Q m -> (forall a, Q a -> Safe Q' (k a)) -> Safe Q' (bind m k).
Proof.
  intros A B Q Q' m k Hm Hk p l pos Hr Hw.
  destruct (Hm p l pos Hr Hw) as (r & p1 & l1 & pos1 & E & Hg & Hs).
  unfold bind. rewrite E. destruct r as [a|e| |]; cbn [good] in Hg; try contradiction.
  - destruct (Hk a Hg p1 l1 pos1 (st_rep _ _ _ _ _ _ _ _ _ Hs) (step_wf _ _ _ _ _ _ _ _ _ Hs Hw))
      as (r & p2 & l2 & pos2 & E2 & Hg2 & Hs2).
    exists r, p2, l2, pos2. split; [exact E2|]. split; [exact Hg2|]. eapply step_trans; eassumption.
  - exists (Err e), p1, l1, pos1. auto.
Qed.

Lemma Safe_weaken : forall A (Q Q' : A -> Prop) m,
  (forall a, Q a -> Q' a) -> Safe Q m -> Safe Q' m.
Proof.
  intros A Q Q' m H Hm p l pos Hr Hw.
  destruct (Hm p l pos Hr Hw) as (r & p1 & l1 & pos1 & E & Hg & Hs).
  exists r, p1, l1, pos1. split; [exact E|]. split; [|exact Hs].
  destruct r; cbn in *; auto.
Qed.

Lemma Safe_any : forall A (Q : A -> Prop) m, Safe Q m -> Safe any m.
Proof. intros A Q m. apply Safe_weaken. intros; exact I. Qed.

Lemma Safe_cfg : Safe any get_cfg.
Proof.
  intros p l pos Hr Hw. exists (Ok (p_cfg p)), p, l, pos.
  split; [reflexivity|]. split; [exact I|now apply step_refl].
Qed.

Lemma Safe_off : Safe any get_off.
Proof.
  intros p l pos Hr Hw. exists (Ok (p_off p)), p, l, pos.
  split; [reflexivity|]. split; [exact I|now apply step_refl].
Qed.

Lemma Safe_parse_if : forall A (Q : A -> Prop) b m, Safe Q m -> Safe (opt_ok Q) (parse_if b m).
Proof.
  intros A Q [] m Hm; unfold parse_if.
  - eapply Safe_bind; [exact Hm|]. intros a Ha. now apply Safe_ret.
  - now apply Safe_ret.
Qed.

Lemma Safe_parse_if_any : forall A b (m : M S A), Safe any m -> Safe any (parse_if b m).
Proof. intros A b m H. eapply Safe_any. apply Safe_parse_if, H. Qed.

(** From the refinement, where there are no events. *)
Definition quiet {B : Type} (P : B -> Prop) (f : F B) : Prop :=
  forall env l pos, wf l ->
  match f env l pos with
  | FOk b _ _ ev => ev = [] /\ P b
  | FErr e _ _ ev => ev = [] /\ err_ok (fe_fin env) e
  end.

Lemma Safe_ref : forall A B (R : A -> B -> Prop) (P : B -> Prop) (Q : A -> Prop) mo m f,
  Ref mo fin cap rep a0 R m f -> quiet P f -> (forall a b, R a b -> P b -> Q a) -> Safe Q m.
Proof.
  intros A B R P Q mo m f Hm Hq HQ p l pos Hr Hw.
  specialize (Hm p l pos Hr Hw). specialize (Hq (mkEnv (p_cfg p) fin) l pos Hw).
  destruct (f _ l pos) as [b l' pos' ev|e l' pos' ev]; destruct Hq as [-> Hq].
  - destruct (Hm ltac:(constructor)) as (a & p' & E & HR & Hs).
    exists (Ok a), p', l', pos'. split; [exact E|]. split; [cbn; eauto|exact Hs].
  - destruct (Hm ltac:(constructor)) as (p' & E & Hs).
    exists (Err e), p', l', pos'. auto.
Qed.

End Judgement.

Lemma err_custom : forall fin k m, proper m k -> err_ok fin (custom_error k m).
Proof. intros fin k m H. right; right. exists k, m; auto. Qed.

Lemma err_fin : forall fin, err_ok fin fin.
Proof. now left. Qed.

Lemma quiet_take : forall n, quiet (fun b => len b = n /\ bytes b) (f_take n).
Proof.
  intros n env l pos Hw. unfold f_take. destruct l as [|h t].
  - split; [reflexivity|apply err_fin].
  - destruct (N.ltb_spec (len (h :: t)) n); split; try reflexivity; try apply err_fin.
    split; [rewrite len_take; lia|]. apply bytes_take, Hw.
Qed.

Lemma quiet_uint : forall pl n, quiet (fun v => v < 256 ^ n) (f_uint pl n).
Proof.
  intros pl n env l pos Hw. pose proof (f_uint_bound pl n env l pos Hw) as G. revert G.
  unfold f_uint, fbind, fcfg, fret, f_take. destruct l as [|h t].
  - intros _; split; [reflexivity|apply err_fin].
  - destruct (len (h :: t) <? n).
    + intros _; split; [reflexivity|apply err_fin].
    + intros [G _]. split; [reflexivity|exact G].
Qed.

Lemma quiet_rest : quiet bytes f_rest.
Proof.
  intros env l pos Hw. unfold f_rest. destruct l as [|h t].
  - split; [reflexivity|apply err_fin].
  - destruct (is_eof (fe_fin env)); split; try reflexivity; try apply err_fin; apply Hw.
Qed.

Lemma quiet_string : quiet bytes f_string.
Proof.
  intros env l pos Hw. unfold f_string, fbind, fret. pose proof (quiet_rest env l pos Hw) as H.
  destruct (f_rest env l pos); destruct H as [-> H]; split; auto.
  rewrite strip_prefix. now apply bytes_take.
Qed.

Section Prim.
Context (pl : platform) {S : Type} (PB : parsebuf S) (mo : mode) (fin : perror) (cap : N)
  (mem : memory) (rep : S -> list N -> N -> Prop) (a0 : N).
Context (HC : contract PB mo fin cap mem rep).

Notation Safe := (Safe fin cap rep a0).

Lemma s_u8 : Safe (fun v => v < 256) (parse_u8 PB).
Proof.
  eapply Safe_ref; [apply (Ref_u8 pl PB mo fin cap mem rep a0 HC)|apply quiet_uint|].
  intros a b <- H; exact H.
Qed.
Lemma s_u16 : Safe (fun v => v < 2 ^ 16) (parse_u16 pl PB).
Proof.
  eapply Safe_ref; [apply (Ref_u16 pl PB mo fin cap mem rep a0 HC)|apply quiet_uint|].
  intros a b <- H; exact H.
Qed.
Lemma s_u32 : Safe (fun v => v < 2 ^ 32) (parse_u32 pl PB).
Proof.
  eapply Safe_ref; [apply (Ref_u32 pl PB mo fin cap mem rep a0 HC)|apply quiet_uint|].
  intros a b <- H; exact H.
Qed.
Lemma s_u64 : Safe (fun v => v < 2 ^ 64) (parse_u64 pl PB).
Proof.
  eapply Safe_ref; [apply (Ref_u64 pl PB mo fin cap mem rep a0 HC)|apply quiet_uint|].
  intros a b <- H; exact H.
Qed.
Lemma s_array : forall n, Safe (fun b => len b = n /\ bytes b) (parse_array PB n).
Proof.
  intros n. eapply Safe_ref; [apply (Ref_array PB mo fin cap mem rep a0 HC)|apply quiet_take|].
  intros a b <- H; exact H.
Qed.
Lemma s_rest : Safe (fun c => bytes (cow_list c)) (parse_rest PB).
Proof.
  eapply Safe_ref; [apply (Ref_rest PB mo fin cap mem rep a0 HC)|apply quiet_rest|].
  intros a b [<- _] H; exact H.
Qed.
Lemma s_string : Safe (fun c => bytes (cow_list c)) (parse_rest_trim_nul PB).
Proof.
  eapply Safe_ref; [apply (Ref_string PB mo fin cap mem rep a0 HC)|apply quiet_string|].
  intros a b [<- _] H; exact H.
Qed.
Lemma s_skip : forall n, Safe any (parse_bytes_ignored PB n).
Proof.
  intros n. eapply Safe_ref with (P := any);
    [apply (Ref_ignored PB mo fin cap mem rep a0 HC)| |intros; exact I].
  intros env l pos Hw. unfold f_skip. destruct (n =? 0); [split; [reflexivity|exact I]|].
  unfold fbind, fret. pose proof (quiet_take n env l pos Hw) as H.
  destruct (f_take n env l pos); destruct H as [-> H]; split; auto. exact I.
Qed.

Lemma s_split : forall n,
  Safe (fun q => p_log q = [] /\ exists d a, cursor_rep mo n mem (p_buf q) d a /\ len d = n /\ wf d)
    (split_at PB n).
Proof.
  intros n p l pos Hr Hw. pose proof (split_spec PB mo fin cap mem rep a0 HC n p l pos Hr Hw) as H.
  destruct (f_split n _ l pos) as [st l' pos' ev|e l' pos' ev].
  - destruct H as (q & p' & E & Hs & Hst & Hl & _).
    exists (Ok q), p', l', pos'. split; [exact E|]. split; [|exact Hst].
    destruct Hs as (_ & _ & Hlog & _ & _ & Hwf & Hrep). split; [exact Hlog|]. eauto.
  - destruct H as (p' & E & Hst & -> & _). exists (Err fin), p', l', pos'.
    split; [exact E|]. split; [apply err_fin|exact Hst].
Qed.

(** A run on another buffer. *)
Lemma Safe_sub : forall A (Q : A -> Prop) S2 (rep2 : S2 -> list N -> N -> Prop) a2 (m : M S2 A) q d a,
  Safe.Safe eof_error cap rep2 a2 Q m ->
  p_log q = [] -> rep2 (p_buf q) d (a2 + a) -> wf d -> Safe Q (sub m q).
Proof.
  intros A Q S2 rep2 a2 m q d a Hm Hlog Hrep Hwd p l pos Hr Hw.
  destruct (Hm q d a Hrep Hwd) as (r & q' & d' & a' & E & Hg & [_ _ _ (new & El & Hn)]).
  rewrite Hlog, app_nil_r in El. unfold sub. rewrite E.
  eexists; eexists; exists l, pos. split; [reflexivity|]. split.
  - destruct r as [x|e| |]; cbn in *; try assumption.
    destruct Hg as [->|[->|H]]; [right; now left|right; now left|right; now right].
  - constructor; cbn; [assumption|reflexivity| |].
    + exists 0; rewrite drop_0; repeat split; lia.
    + exists new; split; [congruence|assumption].
Qed.

Ltac prim :=
  first [apply s_u64 | apply s_u32 | apply s_u16 | apply s_u8 | apply s_array | apply Safe_cfg
        | apply s_string | apply s_rest
        | apply Safe_parse_if; prim ].
Ltac next := eapply Safe_bind; [prim|]; let x := fresh "x" in let H := fresh "H" in intros x H.
Ltac steps := repeat next.
Ltac done := apply Safe_ret; exact I.
Ltac bad := apply Safe_fail, err_custom; reflexivity.

Lemma s_header : Safe (fun h => h_size h < 65536) (parse_header pl PB).
Proof. unfold parse_header. steps. apply Safe_ret. cbn. exact H1. Qed.
Lemma s_lost : Safe any (parse_lost pl PB).
Proof. unfold parse_lost; steps; done. Qed.
Lemma s_lost_samples : Safe any (parse_lost_samples pl PB).
Proof. unfold parse_lost_samples; steps; done. Qed.
Lemma s_exit : Safe any (parse_exit pl PB).
Proof. unfold parse_exit; steps; done. Qed.
Lemma s_throttle : Safe any (parse_throttle pl PB).
Proof. unfold parse_throttle; steps; done. Qed.
Lemma s_aux : Safe any (parse_aux pl PB).
Proof. unfold parse_aux; steps; done. Qed.
Lemma s_itrace_start : Safe any (parse_itrace_start pl PB).
Proof. unfold parse_itrace_start; steps; done. Qed.
Lemma s_switch_cpu_wide : Safe any (parse_switch_cpu_wide pl PB).
Proof.
  unfold parse_switch_cpu_wide; steps.
  destruct (negb (N.land (misc x1) MISC_SWITCH_OUT =? 0)); done.
Qed.
Lemma s_bpf_event : Safe any (parse_bpf_event pl PB).
Proof. unfold parse_bpf_event; steps; done. Qed.
Lemma s_aux_output_hw_id : Safe any (parse_aux_output_hw_id pl PB).
Proof. unfold parse_aux_output_hw_id; steps; done. Qed.
Lemma s_mmap : Safe (fun r => bytes (cow_list (mm_filename r))) (parse_mmap pl PB).
Proof. unfold parse_mmap; steps; now apply Safe_ret. Qed.

Definition detail_ok (d : mmap_detail) : Prop :=
  match d with MdBuildId b n => len b = 20 /\ n <= 20 /\ bytes b | _ => True end.
Lemma s_mmap_detail : Safe detail_ok (parse_mmap_detail pl PB).
Proof.
  unfold parse_mmap_detail; next.
  destruct (negb (N.land (misc x) MISC_MMAP_BUILD_ID =? 0)); steps.
  - destruct (N.ltb_spec 20 x0); [apply Safe_fail, err_custom; cbn; cbv beta in *; auto|]. apply Safe_ret. cbn. cbv beta in *. tauto.
  - apply Safe_ret. exact I.
Qed.
Lemma s_mmap2 :
  Safe (fun r => detail_ok (m2_detail r) /\ bytes (cow_list (m2_filename r))) (parse_mmap2 pl PB).
Proof.
  unfold parse_mmap2; steps. eapply Safe_bind; [apply s_mmap_detail|]. intros d Hd. steps.
  apply Safe_ret. now split.
Qed.
Lemma s_comm : Safe (fun r => bytes (cow_list (cm_comm r))) (parse_comm pl PB).
Proof. unfold parse_comm; steps; now apply Safe_ret. Qed.
Lemma s_ksymbol : Safe (fun r => bytes (cow_list (ks_name r))) (parse_ksymbol pl PB).
Proof. unfold parse_ksymbol; steps; now apply Safe_ret. Qed.
Lemma s_cgroup : Safe (fun r => bytes (cow_list (cg_path r))) (parse_cgroup pl PB).
Proof. unfold parse_cgroup; steps; now apply Safe_ret. Qed.

Lemma s_sample_id : Safe any (parse_sample_id pl PB).
Proof.
  unfold parse_sample_id; next. cbv zeta.
  destruct (negb (sample_id_all x)); [done|].
  steps. eapply Safe_bind.
  { apply Safe_parse_if_any. steps. done. }
  intros c _. steps. done.
Qed.

Lemma s_read_value : Safe any (parse_read_value pl PB).
Proof.
  unfold parse_read_value; next. cbv zeta.
  destruct (contains (read_format x) RF_GROUP); [bad|].
  destruct (negb (difference (read_format x) RF_ALL =? 0)); [bad|].
  steps. done.
Qed.
Lemma s_read : Safe any (parse_read pl PB).
Proof. unfold parse_read; steps. eapply Safe_bind; [apply s_read_value|]. intros v _. done. Qed.

Lemma s_or0 : forall b m, Safe any m -> Safe any (or0 b m).
Proof. intros [] m H; [exact H|done]. Qed.

Ltac prim2 := eapply Safe_any; first [prim | apply s_or0; eapply Safe_any; prim].
Lemma s_attr_fields : forall t sz, Safe any (parse_attr_fields pl PB t sz).
Proof.
  intros t sz. unfold parse_attr_fields.
  do 21 (eapply Safe_bind; [prim2|]; intros ? _).
  eapply Safe_bind with (Q := any).
  - destruct (PERF_ATTR_SIZE_MAX <? sz); [|done].
    eapply Safe_bind; [apply s_rest|]. intros c _.
    destruct (forallb (fun b => b =? 0) (cow_list c)); [done|bad].
  - intros ? _. done.
Qed.

(** The parsers that reserve memory. *)
Context (Hcap : cap <= isize_max pl).

Lemma s_bytes : forall n, Safe (fun c => len (cow_list c) = n) (parse_bytes pl PB n).
Proof.
  intros n. eapply Safe_ref; [apply (Ref_bytes pl PB mo fin cap mem rep a0 HC Hcap)|apply quiet_take|].
  intros a b [<- _] H; apply H.
Qed.

Lemma s_text_poke : Safe any (parse_text_poke pl PB).
Proof.
  unfold parse_text_poke; steps. cbv zeta.
  pose proof (round_up_bound (x0 + x1)) as Hup.
  set (full := round_up_mod (x0 + x1) 4 8) in *.
  eapply Safe_bind; [apply s_bytes|]. intros c Hc.
  eapply Safe_bind with (Q := any).
  - apply Safe_lift. destruct c as [a d|d]; cbn [cow_split_at cow_list] in *.
    + replace (len d <? x0) with false by (symmetry; apply N.ltb_ge; lia). exact I.
    + rewrite Hc. destruct (x0 =? 0); [exact I|]. destruct (x0 =? full); [exact I|].
      replace (full <? x0) with false by (symmetry; apply N.ltb_ge; lia). exact I.
  - intros [u v] _. cbn [fst snd]. eapply Safe_bind with (Q := any); [|intros ? _; done].
    apply Safe_lift. destruct v as [a d|d]; cbn [cow_truncate];
      repeat match goal with |- context [if ?b then _ else _] => destruct b end; exact I.
Qed.

Lemma s_slice : forall A (E : elem A) (FE : felem A),
  el_size E = fl_size FE -> 0 < fl_size FE -> fl_size FE <= 16384 ->
  Ref mo fin cap rep a0 eq (el_parse E PB) (f_elem pl FE) ->
  forall n, Safe (fun c => len (cow_list c) = n) (parse_slice pl PB E n).
Proof.
  intros A E FE Hsize Hpos Hle Hel n.
  assert (Hrep : Safe (fun l => len l = n) (parse_repeated pl PB E n)).
  { intros p l pos Hr Hw.
    pose proof (repeated_spec pl PB mo fin cap mem rep a0 HC Hcap E FE Hsize Hpos Hle Hel
                  n p l pos Hr Hw) as H.
    destruct (parse_repeated pl PB E n p) as [r p'].
    destruct (N.ltb_spec (len l) (n * fl_size FE)); destruct H as [-> H].
    - exists (Err fin), p', [], (pos + len l). split; [reflexivity|]. split; [apply err_fin|exact H].
    - eexists; exists p'; eexists; eexists. split; [reflexivity|]. split; [|exact H].
      cbn. apply decode_len; [exact Hpos|]. rewrite len_take; lia. }
  unfold parse_slice. eapply Safe_bind with (Q := fun r => match r with Some (_, l) => len l = n | None => True end).
  2: { intros [[a l]|] Hl; [now apply Safe_ret|].
       eapply Safe_bind; [exact Hrep|]. intros l Hn. now apply Safe_ret. }
  unfold parse_slice_direct. next.
  destruct (negb (is_native pl (c_endian x))); [now apply Safe_ret|].
  destruct (checked_mul pl n (el_size E)) as [k|] eqn:Ek; [|bad].
  assert (Hk : k = n * fl_size FE).
  { unfold checked_mul in Ek. destruct (_ <=? _); [|discriminate]. rewrite <- Hsize. congruence. }
  eapply Safe_bind with (Q := fun r => match r with Some (_, d) => len d = k | None => True end).
  - intros p l pos Hr Hw.
    pose proof (bytes_direct_spec PB mo fin cap mem rep a0 HC k p l pos Hr Hw) as H1.
    destruct l as [|h t].
    + destruct H1 as (p1 & E1 & Hs). exists (Err fin), p1, [], pos.
      split; [exact E1|]. split; [apply err_fin|exact Hs].
    + destruct H1 as ([[a d]|] & p1 & E1 & H1).
      * destruct H1 as (Hn & Hd & Hm & Hx & Hs). exists (Ok (Some (a, d))), p1.
        eexists; eexists. split; [exact E1|]. split; [|exact Hs]. cbn. rewrite Hd, len_take; lia.
      * destruct H1 as [_ Hs]. exists (Ok None), p1. eexists; eexists.
        split; [exact E1|]. split; [exact I|exact Hs].
  - intros [[a d]|] Hd; [|now apply Safe_ret].
    destruct ((a mod word_align pl =? 0) || (len d =? 0)); apply Safe_ret; [|exact I].
    unfold len at 1. rewrite map_length, Hsize. fold (len (chunks (fl_size FE) d)).
    rewrite len_chunks, Hd, Hk by exact Hpos. apply N.div_mul; lia.
Qed.

Lemma s_slice_u64 : forall n, Safe (fun c => len (cow_list c) = n) (parse_slice pl PB (elem_u64 pl) n).
Proof.
  apply (s_slice N (elem_u64 pl) fl_u64);
    cbn [el_size fl_size elem_u64 fl_u64]; try lia; try reflexivity.
  apply (Ref_u64 pl PB mo fin cap mem rep a0 HC).
Qed.

Lemma s_slice_ns : forall n, Safe (fun c => len (cow_list c) = n) (parse_slice pl PB (elem_ns pl) n).
Proof.
  apply (s_slice ns_entry (elem_ns pl) fl_ns);
    cbn [el_size fl_size elem_ns fl_ns]; try lia; try reflexivity.
  eapply Ref_ext; [intros; apply f_ns_eq|]. cbn [el_parse elem_ns]. unfold parse_ns_entry.
  do 2 (eapply Ref_bind; [apply (Ref_u64 pl PB mo fin cap mem rep a0 HC)|]; intros ? ? <-).
  now apply Ref_ret.
Qed.

Lemma s_slice_branch : forall n,
  Safe (fun c => len (cow_list c) = n) (parse_slice pl PB (elem_branch pl) n).
Proof.
  apply (s_slice branch_entry (elem_branch pl) fl_branch);
    cbn [el_size fl_size elem_branch fl_branch]; try lia; try reflexivity.
  eapply Ref_ext; [intros; apply f_branch_eq|]. cbn [el_parse elem_branch]. unfold parse_branch_entry.
  do 3 (eapply Ref_bind; [apply (Ref_u64 pl PB mo fin cap mem rep a0 HC)|]; intros ? ? <-).
  now apply Ref_ret.
Qed.

Lemma s_namespaces : Safe any (parse_namespaces pl PB).
Proof.
  unfold parse_namespaces; steps. eapply Safe_bind; [apply s_slice_ns|]. intros c _. done.
Qed.

(** A group holds a whole number of entries. *)
Definition group_wf (g : read_group cow) : Prop :=
  contains (rg_format g) RF_GROUP = true /\
  exists k, len (cow_list (rg_data g)) = k * element_len (rg_format g).

Lemma s_read_group : Safe group_wf (parse_read_group pl PB).
Proof.
  unfold parse_read_group; next. cbv zeta.
  destruct (contains (read_format x) RF_GROUP) eqn:Eg; cbn [negb]; [|bad].
  destruct (negb (difference (read_format x) RF_ALL =? 0)); [bad|].
  steps. unfold checked_mul.
  destruct (as_usize pl x0 * element_len (read_format x) <=? usize_max pl); [|bad].
  eapply Safe_bind; [apply s_slice_u64|]. intros c Hc. apply Safe_ret. split; [exact Eg|].
  cbn [rg_data rg_format]. eexists; exact Hc.
Qed.

Definition regs_wf (mask : N) (r : registers cow) : Prop :=
  rg_mask r = mask /\ len (cow_list (rg_regs r)) = popcount mask.

Lemma s_registers : forall mask, Safe (regs_wf mask) (parse_registers pl PB mask).
Proof.
  intros mask. unfold parse_registers; steps. eapply Safe_bind; [apply s_slice_u64|].
  intros c Hc. apply Safe_ret. split; [reflexivity|exact Hc].
Qed.

Lemma safe_regs_user : Safe any (parse_regs_user pl PB).
Proof. unfold parse_regs_user; next. eapply Safe_any. apply s_registers. Qed.
Lemma safe_regs_intr : Safe any (parse_regs_intr pl PB).
Proof. unfold parse_regs_intr; next. eapply Safe_any. apply s_registers. Qed.

Lemma group_of_value_wf : forall v, group_wf (group_of_value v).
Proof.
  intros v. split.
  - unfold group_of_value; cbn [rg_format]. unfold contains.
    rewrite N.land_lor_distr_l, N.land_diag.
    apply N.eqb_eq. apply N.bits_inj; intros i. rewrite N.lor_spec, N.land_spec.
    destruct (N.testbit (rv_format v) i), (N.testbit RF_GROUP i); reflexivity.
  - exists 1. unfold group_of_value; cbn [rg_data rg_format cow_list].
    unfold rv_get_id, rv_get_lost, RF_ID, RF_LOST, RF_GROUP.
    rewrite element_len_eq, !contains_pow2, !N.lor_spec.
    change (N.testbit (2 ^ 3) 2) with false. change (N.testbit (2 ^ 3) 4) with false.
    rewrite !orb_false_r.
    destruct (N.testbit (rv_format v) 2), (N.testbit (rv_format v) 4); reflexivity.
Qed.

Lemma s_sample_read : Safe group_wf (parse_sample_read pl PB).
Proof.
  unfold parse_sample_read; next.
  destruct (contains (read_format x) RF_GROUP); [apply s_read_group|].
  eapply Safe_bind; [apply s_read_value|]. intros v _. apply Safe_ret, group_of_value_wf.
Qed.

Lemma s_callchain : Safe any (parse_callchain pl PB).
Proof. unfold parse_callchain; steps. eapply Safe_any; apply s_slice_u64. Qed.

Lemma s_padded : forall A (Q : A -> Prop) k m, k <> 0 -> Safe Q m -> Safe Q (parse_padded PB k m).
Proof.
  intros A Q k m Hk Hm. unfold parse_padded. apply N.eqb_neq in Hk. rewrite Hk.
  eapply Safe_bind; [apply Safe_off|]. intros o1 _.
  eapply Safe_bind; [exact Hm|]. intros v Hv.
  eapply Safe_bind; [apply Safe_off|]. intros o2 _.
  eapply Safe_bind with (Q := any).
  - destruct ((o2 - o1) mod k =? 0); [done|apply s_skip].
  - intros _ _. now apply Safe_ret.
Qed.

Lemma s_raw : Safe any (parse_raw pl PB).
Proof.
  unfold parse_raw. apply s_padded; [lia|]. steps. eapply Safe_any; apply s_bytes.
Qed.

Lemma s_lbr : forall hw, Safe any (parse_lbr pl PB hw).
Proof.
  intros hw. unfold parse_lbr; steps. eapply Safe_bind; [apply s_slice_branch|].
  intros c _. done.
Qed.

Lemma s_stack_user : Safe any (parse_stack_user pl PB).
Proof.
  unfold parse_stack_user; steps. eapply Safe_bind; [apply s_bytes|]. intros c _.
  eapply Safe_bind with (Q := any).
  { destruct (as_usize pl x =? 0); [done|]. steps. done. }
  intros k _. destruct (N.ltb_spec (len (cow_list c)) k) as [Hk|Hk]; [bad|].
  apply Safe_lift. destruct c as [a d|d]; cbn in *; [|exact I].
  replace (len d <? k) with false by (symmetry; apply N.ltb_ge; lia). exact I.
Qed.

Lemma s_sample_aux : Safe any (parse_sample_aux pl PB).
Proof. unfold parse_sample_aux; steps. eapply Safe_any; apply s_bytes. Qed.

Definition sample_wf (s : sample cow) : Prop :=
  opt_ok group_wf (s_values s) /\
  opt_ok (fun r => regs_wf (rg_mask r) r) (s_regs_user s) /\
  opt_ok (fun r => regs_wf (rg_mask r) r) (s_regs_intr s).

Lemma regs_wf_self : forall mask r, regs_wf mask r -> regs_wf (rg_mask r) r.
Proof. intros mask r [<- H]. split; [reflexivity|exact H]. Qed.

Lemma s_sample : Safe sample_wf (parse_sample pl PB).
Proof.
  unfold parse_sample. next. cbv zeta.
  steps. eapply Safe_bind. { apply Safe_parse_if_any. steps. done. } intros ? _.
  next. eapply Safe_bind; [apply Safe_parse_if, s_sample_read|]. intros vals Hvals.
  eapply Safe_bind; [apply Safe_parse_if_any, s_callchain|]. intros ? _.
  eapply Safe_bind; [apply Safe_parse_if_any, s_raw|]. intros ? _.
  eapply Safe_bind; [apply Safe_parse_if_any, s_lbr|]. intros ? _.
  eapply Safe_bind; [apply Safe_parse_if, s_registers|]. intros ru Hru.
  eapply Safe_bind; [apply Safe_parse_if_any, s_stack_user|]. intros ? _.
  steps. eapply Safe_bind; [apply Safe_parse_if, s_registers|]. intros ri Hri.
  steps. eapply Safe_bind; [apply Safe_parse_if_any, s_sample_aux|]. intros ? _.
  apply Safe_ret. split; [exact Hvals|].
  split; [exact (opt_ok_impl _ _ _ _ (regs_wf_self _) Hru)
         |exact (opt_ok_impl _ _ _ _ (regs_wf_self _) Hri)].
Qed.

(** What every parsed body satisfies, whatever the input. *)
Definition body_wf (b : body cow) : Prop :=
  match b with
  | BMmap2 r => detail_ok (m2_detail r) /\ bytes (cow_list (m2_filename r))
  | BSample r => sample_wf r
  | BMmap r => bytes (cow_list (mm_filename r))
  | BComm r => bytes (cow_list (cm_comm r))
  | BKsymbol r => bytes (cow_list (ks_name r))
  | BCgroup r => bytes (cow_list (cg_path r))
  | _ => True
  end.

Lemma s_body : forall t, Safe body_wf (parse_body pl PB t).
Proof.
  intros t. unfold parse_body.
  Ltac one L := eapply Safe_bind; [apply L|]; intros ? ?; apply Safe_ret; cbn; auto.
  repeat match goal with
  | |- Safe _ (if ?b then _ else _) =>
      destruct b;
      [first [one s_mmap | one s_lost | one s_comm | one s_exit | one s_throttle | one s_read
             | one s_sample | one s_mmap2 | one s_aux | one s_itrace_start | one s_lost_samples
             | one s_switch_cpu_wide | one s_namespaces | one s_ksymbol | one s_bpf_event
             | one s_cgroup | one s_text_poke | one s_aux_output_hw_id]|]
  end.
  one s_rest.
Qed.
End Prim.

Lemma size_refused : forall s, attr_size_ok s = false -> proper (MsgAttrSize s) KInvalidRecord.
Proof.
  intros s H. apply orb_false_iff in H as [H1 H2]. apply N.ltb_ge in H2.
  split; [reflexivity|]. split; [exact H2|]. intros Hin.
  assert (E : existsb (N.eqb s) [64; 72; 80; 96; 104; 112; 120; 128; 136] = true)
    by (apply existsb_exists; exists s; split; [exact Hin|apply N.eqb_refl]).
  change (existsb (N.eqb s) [64; 72; 80; 96; 104; 112; 120; 128; 136] = false) in H1. congruence.
Qed.

Section Top.
Context (pl : platform) {S : Type} (PB : parsebuf S) (mo : mode) (fin : perror) (cap : N)
  (mem : memory) (rep : S -> list N -> N -> Prop) (a0 : N).
Context (HC : contract PB mo fin cap mem rep).

Notation Safe := (Safe fin cap rep a0).
Ltac bad := apply Safe_fail, err_custom; reflexivity.

Lemma s_attr : pl_ok pl -> Safe any (parse_attr pl PB).
Proof.
  intros Hpl. unfold parse_attr.
  eapply Safe_bind; [apply (s_u32 pl PB mo fin cap mem rep a0 HC)|]. intros t _.
  eapply Safe_bind; [apply (s_u32 pl PB mo fin cap mem rep a0 HC)|]. intros s Hs.
  destruct (attr_size_ok s) eqn:Eok; cbn [negb]; [|apply Safe_fail, err_custom, size_refused, Eok].
  assert (H4 : 4 <= s).
  { unfold attr_size_ok in Eok. apply orb_true_iff in Eok as [Eok|Eok].
    - apply existsb_exists in Eok as (x & Hin & Ex). apply N.eqb_eq in Ex; subst x.
      cbn in Hin. repeat (destruct Hin as [<-|Hin]; [vm_compute; discriminate|]). contradiction.
    - apply N.ltb_lt in Eok. unfold PERF_ATTR_SIZE_MAX, PERF_ATTR_SIZE_VER8 in Eok. lia. }
  assert (Eu : as_usize pl s = s).
  { unfold as_usize. apply N.mod_small.
    eapply N.lt_le_trans; [exact Hs|]. apply N.pow_le_mono_r; [lia|].
    destruct Hpl as [E|E]; rewrite E; lia. }
  rewrite Eu. unfold checked_sub. apply N.leb_le in H4. rewrite H4.
  eapply Safe_bind; [apply (s_split PB mo fin cap mem rep a0 HC)|].
  intros q (Hlog & d & a & Hrep & Hlen & Hwd).
  eapply (Safe_sub fin cap rep a0 _ _ _ (fun s l a => exists n, cursor_rep mo n mem s l a) 0
           _ q d a); [|exact Hlog|now exists (s - 4)|exact Hwd].
  intros p l pos Hr Hw. rewrite attr_fields_nohint. revert p l pos Hr Hw.
  apply (s_attr_fields pl cursor_nohint mo eof_error cap mem _ 0 (nohint_contract mo cap mem)).
Qed.

Context (Hcap : cap <= isize_max pl).

(** A cursor for a record. *)
Definition record_cursor (q : parser cursor) : Prop :=
  p_log q = [] /\ exists n d a, n <= cap /\ cu_offset (p_buf q) = 0 /\
    cursor_rep mo n mem (p_buf q) d a /\ wf d.

Lemma s_split' : forall T (PB' : parsebuf T) fin' rep' a1 n,
  contract PB' mo fin' cap mem rep' -> n <= cap ->
  Safe.Safe fin' cap rep' a1 (fun q => record_cursor q /\ cu_len (p_buf q) = n) (split_at PB' n).
Proof.
  intros T PB' fin' rep' a1 n HC' Hn p l pos Hr Hw.
  pose proof (split_spec PB' mo fin' cap mem rep' a1 HC' n p l pos Hr Hw) as H.
  destruct (f_split n _ l pos) as [st l' pos' ev|e l' pos' ev].
  - destruct H as (q & p' & E & Hs & Hst & Hl & _).
    exists (Ok q), p', l', pos'. split; [exact E|]. split; [|exact Hst].
    destruct Hs as (_ & _ & Hlog & Hoff & Hlen & Hwf & Hrep). split; [|exact Hlen].
    split; [exact Hlog|]. exists n. eauto 10.
  - destruct H as (p' & E & Hst & -> & _). exists (Err fin'), p', l', pos'.
    split; [exact E|]. split; [apply err_fin|exact Hst].
Qed.

Lemma s_metadata_with_header : forall h, h_size h <= cap + 8 ->
  Safe (fun r => record_cursor (fst r) /\ md_ty (snd r) = h_type h /\ md_misc (snd r) = h_misc h)
    (parse_metadata_with_header pl PB h).
Proof.
  intros h Hh. unfold parse_metadata_with_header.
  destruct (checked_sub (h_size h) 8) as [n|] eqn:En; [|bad].
  assert (Hn : n <= cap).
  { unfold checked_sub in En. destruct (8 <=? h_size h); [|discriminate]. injection En as <-. lia. }
  eapply Safe_bind; [apply s_split'; [exact HC|exact Hn]|]. intros q [Hq Hql].
  destruct (_ || _); [apply Safe_ret; cbn; auto|].
  destruct (checked_sub n (estimate_len (p_cfg q))) as [k|] eqn:Ek; [|bad].
  assert (Hk : k <= cap).
  { unfold checked_sub in Ek. destruct (estimate_len (p_cfg q) <=? n); [|discriminate].
    injection Ek as <-. lia. }
  destruct Hq as (Hlog & n' & d & a & Hn' & Hoff & Hrep & Hwd).
  eapply Safe_bind with (Q := fun r => record_cursor (fst r)).
  - eapply (Safe_sub fin cap rep a0 _ _ _ (cursor_rep mo cap mem) 0 _ q d a);
      [|exact Hlog|eapply cursor_rep_mono; [|exact Hrep]; lia|exact Hwd].
    eapply Safe_bind; [apply s_split'; [apply cursor_contract|exact Hk]|]. intros q2 [Hq2 _].
    eapply Safe_bind.
    { apply (s_sample_id pl cursor_buf mo eof_error cap mem _ 0). apply cursor_contract. }
    intros si _. now apply Safe_ret.
  - intros r Hr. apply Safe_ret. cbn. auto.
Qed.

Lemma s_collect_with_header : forall h, h_size h <= cap + 8 ->
  Safe (fun r => body_wf (fst r) /\ md_ty (snd r) = h_type h /\ md_misc (snd r) = h_misc h)
    (collect_with_header pl PB h).
Proof.
  intros h Hh. unfold collect_with_header.
  eapply Safe_bind; [apply s_metadata_with_header, Hh|]. intros [q md] (Hq & Hmd). cbn [fst snd] in *.
  destruct Hq as (Hlog & n & d & a & Hn & Hoff & Hrep & Hwd).
  destruct (cursor_as_slice (p_buf q)) as [[x dd]|] eqn:Esl.
  - unfold cursor_as_slice in Esl.
    destruct Hrep as (start & cs & H1 & H2 & H3 & H4 & H5 & H6 & H7).
    assert (Ecs : cs = [Borrowed x dd]).
    { rewrite <- (rev_involutive cs), <- H1.
      destruct (cu_chunks (p_buf q)) as [|[a' d'|] [|]]; try discriminate.
      injection Esl as -> ->. reflexivity. }
    subst cs. cbn [chunks_ok map concat cow_list] in *. rewrite Hoff in *.
    rewrite drop_0, app_nil_r in H5. destruct H3 as (Hne & (Hm & Hmo) & _).
    eapply Safe_bind with (Q := body_wf).
    + eapply (Safe_sub fin cap rep a0 _ _ _ (slice_rep cap mem) 0 _ _ d x);
        [|reflexivity| |exact Hwd].
      * eapply s_body; [apply slice_contract|assumption].
      * cbn [p_buf new_parser]. split; [cbn; congruence|]. split; [reflexivity|].
        rewrite H5 at 1. split; [exact Hm|]. lia.
    + intros b Hb. apply Safe_ret. cbn; auto.
  - eapply Safe_bind with (Q := body_wf).
    + eapply (Safe_sub fin cap rep a0 _ _ _ (cursor_rep mo cap mem) 0 _ _ d a);
        [|reflexivity| |exact Hwd].
      * eapply s_body; [apply cursor_contract|assumption].
      * cbn [p_buf new_parser]. eapply cursor_rep_mono; [|exact Hrep]. lia.
    + intros b Hb. apply Safe_ret. cbn; auto.
Qed.

Context (H16 : 65527 <= cap).

Lemma s_collect : Safe (fun r => body_wf (fst r)) (collect pl PB).
Proof.
  unfold collect. eapply Safe_bind; [apply (s_header pl PB mo fin cap mem rep a0 HC)|].
  intros h Hh. eapply Safe_weaken; [|apply s_collect_with_header; cbv beta in Hh; lia].
  intros a [H _]; exact H.
Qed.

(** A record with any visitor: the visitor's own result, or an error. *)
Lemma s_record : forall O (V : visitor O) p l pos, rep (p_buf p) l (a0 + pos) -> wf l ->
  exists r p' l' pos', parse_record pl PB V p = (r, p') /\
    step cap rep a0 p l pos p' l' pos' /\
    ((exists b md, r = deliver V b md /\ body_wf b) \/ (exists e, r = Err e /\ err_ok fin e)).
Proof.
  intros O V p l pos Hr Hw. destruct (s_collect p l pos Hr Hw) as (r & p' & l' & pos' & E & Hg & Hs).
  rewrite record_eq. unfold bind at 1. rewrite E.
  destruct r as [[b md]|e| |]; cbn [good] in Hg; try contradiction.
  - cbn [lift fst snd]. eexists; exists p', l', pos'. split; [reflexivity|]. split; [exact Hs|].
    left. exists b, md. auto.
  - exists (Err e), p', l', pos'. split; [reflexivity|]. split; [exact Hs|]. right. eauto.
Qed.
End Top.
