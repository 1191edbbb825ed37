(** From round trips of the flat parsers to parsers on any source. *)
From Coq Require Import NArith List Bool Lia.
From Verif Require Import Base BaseFacts Types Platform Config Buf Parser Contract Flat Refine.
From Verif Require Import Instances Prims Slices Records Sample Record Attr Views RefRecords.
From Verif Require Import RefFrame RefTop Safe Wire Codec ConfFacts Roundtrip RtSample RtRecord.
From Verif Require Import Spec NoHint FrameFacts.
Import ListNotations.
Open Scope N_scope.

(** * Which events a flat parser can leave *)

Definition evs (C : config -> Prop) (P : event -> Prop) {B : Type} (f : F B) : Prop :=
  forall env l pos, C (fe_cfg env) ->
  match f env l pos with FOk _ _ _ ev | FErr _ _ _ ev => Forall P ev end.

Section Evs.
Context (pl : platform) (C : config -> Prop) (P : event -> Prop).
Context (Cmisc : forall c m, C c -> C (with_misc c m)).

Notation E := (evs C P).

Lemma evs_noev : forall B (f : F B), noev f -> E f.
Proof.
  intros B f H env l pos _. specialize (H env l pos).
  destruct (f env l pos); subst; constructor.
Qed.
Lemma evs_ret : forall B (b : B), E (fret b).
Proof. intros; apply evs_noev, noev_ret. Qed.
Lemma evs_fail : forall B e, E (@ffail B e).
Proof. intros; apply evs_noev, noev_fail. Qed.
Lemma evs_cfg : E fcfg.
Proof. apply evs_noev, noev_cfg. Qed.
Lemma evs_bind : forall B D (m : F B) (k : B -> F D), E m -> (forall b, E (k b)) -> E (fbind m k).
Proof.
  intros B D m k Hm Hk env l pos Hc. unfold fbind. specialize (Hm env l pos Hc).
  destruct (m env l pos) as [b l1 pos1 ev1|]; [|exact Hm]. specialize (Hk b env l1 pos1 Hc).
  destruct (k b env l1 pos1); now apply Forall_app.
Qed.
(** The configuration read is one that [C] holds of. *)
Lemma evs_cfg_bind : forall D (k : config -> F D), (forall c, C c -> E (k c)) -> E (fbind fcfg k).
Proof.
  intros D k Hk env l pos Hc. unfold fbind, fcfg. specialize (Hk _ Hc env l pos Hc).
  destruct (k (fe_cfg env) env l pos); exact Hk.
Qed.
Lemma evs_take : forall n, E (f_take n).
Proof. intros; apply evs_noev, noev_take. Qed.
Lemma evs_uint : forall n, E (f_uint pl n).
Proof. intros; apply evs_noev, noev_uint. Qed.
Lemma evs_if : forall B b (m : F B), E m -> E (f_if b m).
Proof.
  intros B [] m H; unfold f_if; [|apply evs_ret].
  apply evs_bind; [exact H|]. intros x; apply evs_ret.
Qed.
Lemma evs_rest : E f_rest.
Proof. apply evs_noev, noev_rest. Qed.
Lemma evs_string : E f_string.
Proof. apply evs_noev, noev_string. Qed.
Lemma evs_skip : forall n, E (f_skip n).
Proof. intros; apply evs_noev, noev_skip. Qed.
Lemma evs_padded : forall B k (m : F B), E m -> E (f_padded k m).
Proof.
  intros B k m H env l pos Hc. unfold f_padded. revert Hc.
  apply (evs_bind _ _ m (fun x env' l' pos' =>
    (_ <~ f_skip (if (pos' - pos) mod k =? 0 then 0 else k - (pos' - pos) mod k) ;; fret x) env' l' pos')
    H).
  intros x env' l' pos'. apply evs_bind; [apply evs_skip|]. intros _; apply evs_ret.
Qed.
Lemma evs_split : forall n, E (f_split n).
Proof.
  intros n env l pos Hc. unfold f_split. destruct (n =? 0); [constructor|].
  pose proof (evs_take n env l pos Hc) as H. destruct (f_take n env l pos); exact H.
Qed.
Lemma evs_sub : forall B (m : F B) c st, E m -> C c -> E (f_sub m c st).
Proof.
  intros B m c st H Hc env l pos _. unfold f_sub.
  specialize (H (mkEnv c eof_error) (fst st) (snd st) Hc). destruct (m _ _ _); exact H.
Qed.

(** No array of the host's byte order. *)
Lemma evs_array_foreign : forall B (FE : felem B) n,
  (forall c, C c -> order_of pl (c_endian c) <> pl_host pl) -> E (f_array pl FE n).
Proof.
  intros B FE n Ho env l pos Hc. unfold f_array. cbv zeta. specialize (Ho _ Hc).
  replace (order_eqb (order_of pl (c_endian (fe_cfg env))) (pl_host pl)) with false
    by (destruct (order_of pl (c_endian (fe_cfg env))), (pl_host pl); cbn; congruence).
  cbn [andb]. destruct (len l <? n * fl_size FE); constructor.
Qed.

Lemma evs_event : forall b e, (b = true -> P e) -> E (f_event b e).
Proof. intros [] e H env l pos _; cbn; [|constructor]. constructor; [now apply H|constructor]. Qed.

Ltac evs_step :=
  first [ apply evs_ret | apply evs_fail | apply evs_uint | apply evs_take
        | apply evs_if | apply evs_rest | apply evs_string | apply evs_skip
        | apply evs_cfg_bind; intros ? ? | apply evs_bind; [|intros ?] ].

Lemma evs_header : E (f_header pl).
Proof. apply evs_noev, noev_header. Qed.
Lemma evs_sample_id : E (f_sample_id pl).
Proof. apply evs_noev, noev_sample_id. Qed.

Lemma evs_metadata : forall h, E (f_metadata_with_header pl h).
Proof.
  intros h. unfold f_metadata_with_header. destruct (h_size h <? 8); [apply evs_fail|].
  apply evs_bind; [apply evs_split|]. intros st. destruct (_ || _); [apply evs_ret|].
  apply evs_cfg_bind. intros c Hc. destruct (_ <? _); [apply evs_fail|].
  apply evs_bind; [|intros; apply evs_ret]. apply evs_sub; [|exact Hc].
  apply evs_bind; [apply evs_split|]. intros b.
  apply evs_bind; [apply evs_sample_id|]. intros; apply evs_ret.
Qed.

Lemma evs_read_value : E (f_read_value pl).
Proof.
  unfold f_read_value. evs_step. cbv zeta. destruct (contains _ _); [evs_step|].
  destruct (negb _); [evs_step|]. repeat evs_step.
Qed.
Lemma evs_read : E (f_read pl).
Proof. unfold f_read. evs_step. evs_step. evs_step; [evs_step|]. evs_step; [apply evs_read_value|]. evs_step. Qed.
Lemma evs_detail : E (f_mmap_detail pl).
Proof.
  unfold f_mmap_detail. evs_step. destruct (negb _); repeat evs_step. destruct (20 <? _); evs_step.
Qed.
Lemma evs_mmap2 : E (f_mmap2 pl).
Proof.
  unfold f_mmap2. repeat match goal with
  | |- evs _ _ (fbind (f_mmap_detail pl) _) => apply evs_bind; [apply evs_detail|intros ?]
  | _ => evs_step end.
Qed.

Lemma evs_text_poke : P EPoke -> E (f_text_poke pl).
Proof.
  intros HP. unfold f_text_poke. repeat match goal with
  | |- evs _ _ (fbind (f_event _ _) _) => apply evs_bind; [apply evs_event; intros _; exact HP|intros ?]
  | _ => progress cbv zeta
  | _ => evs_step end.
Qed.

Context (Harr : forall B (FE : felem B) n, E (f_array pl FE n)).

Lemma evs_namespaces : E (f_namespaces pl).
Proof.
  unfold f_namespaces. evs_step; [evs_step|]. evs_step; [evs_step|]. evs_step; [evs_step|].
  evs_step; [apply Harr|]. evs_step.
Qed.
Lemma evs_read_group : E (f_read_group pl).
Proof.
  unfold f_read_group. evs_step. cbv zeta. destruct (negb _); [evs_step|].
  destruct (negb _); [evs_step|]. evs_step; [evs_step|]. evs_step; [evs_step; evs_step|].
  evs_step; [evs_step; evs_step|]. destruct (_ <? _); [evs_step|]. evs_step; [apply Harr|]. evs_step.
Qed.
Lemma evs_sample_read : E (f_sample_read pl).
Proof.
  unfold f_sample_read. evs_step. destruct (contains _ _); [apply evs_read_group|].
  evs_step; [apply evs_read_value|evs_step].
Qed.
Lemma evs_registers : forall mask, E (f_registers pl mask).
Proof. intros mask. unfold f_registers. evs_step; [evs_step|]. evs_step; [apply Harr|evs_step]. Qed.
Lemma evs_callchain : E (f_callchain pl).
Proof. unfold f_callchain. evs_step; [evs_step|]. apply Harr. Qed.
Lemma evs_raw : E (f_raw pl).
Proof. apply evs_padded. repeat evs_step. Qed.
Lemma evs_lbr : forall hw, E (f_lbr pl hw).
Proof.
  intros hw. unfold f_lbr. evs_step; [evs_step|]. evs_step; [evs_step; evs_step|].
  evs_step; [apply Harr|evs_step].
Qed.
Lemma evs_stack : E (f_stack_user pl).
Proof.
  unfold f_stack_user. evs_step; [evs_step|]. evs_step; [evs_step|]. evs_step.
  - destruct (_ =? 0); repeat evs_step.
  - destruct (_ <? _); evs_step.
Qed.
Lemma evs_aux : E (f_sample_aux pl).
Proof. unfold f_sample_aux. repeat evs_step. Qed.

Lemma evs_sample : E (f_sample pl).
Proof.
  unfold f_sample. evs_step. cbv zeta.
  repeat match goal with
  | |- evs _ _ (f_sample_read pl) => apply evs_sample_read
  | |- evs _ _ (f_callchain pl) => apply evs_callchain
  | |- evs _ _ (f_raw pl) => apply evs_raw
  | |- evs _ _ (f_lbr pl _) => apply evs_lbr
  | |- evs _ _ (f_registers pl _) => apply evs_registers
  | |- evs _ _ (f_stack_user pl) => apply evs_stack
  | |- evs _ _ (f_sample_aux pl) => apply evs_aux
  | _ => evs_step end.
Qed.
End Evs.

Ltac evs_step :=
  first [ apply evs_ret | apply evs_fail | apply evs_uint | apply evs_take
        | apply evs_if | apply evs_rest | apply evs_string | apply evs_skip
        | apply evs_cfg_bind; intros ? ? | apply evs_bind; [|intros ?] ].

(** Arrays are aligned like the words of the platform. *)
Definition own (pl : platform) (e : event) : Prop :=
  match e with ESlice al _ => al = pl_align pl | EPoke => True end.

Lemma evs_array_own : forall pl (C : config -> Prop) B (FE : felem B) n,
  evs C (own pl) (f_array pl FE n).
Proof.
  intros pl C B FE n env l pos _. unfold f_array. cbv zeta.
  destruct (_ && _); [constructor|]. destruct (_ && _); [constructor|].
  destruct (_ <? _); [constructor|]. destruct (_ && _); repeat constructor.
Qed.

Lemma evs_body_own : forall pl (C : config -> Prop) t, evs C (own pl) (f_body pl t).
Proof.
  intros pl C t. unfold f_body.
  repeat match goal with
  | |- evs _ _ (if t =? ?k then _ else _) => destruct (N.eqb_spec t k)
  end; apply evs_bind; try (intros; apply evs_ret).
  all: try (unfold f_mmap, f_lost, f_comm, f_exit, f_throttle, f_aux, f_itrace_start, f_lost_samples,
    f_switch_cpu_wide, f_ksymbol, f_bpf_event, f_cgroup, f_aux_output_hw_id; repeat evs_step; fail).
  - apply evs_read.
  - apply evs_sample. intros. apply evs_array_own.
  - apply evs_mmap2.
  - apply evs_namespaces. intros. apply evs_array_own.
  - apply evs_text_poke. exact I.
Qed.

Definition not_slice (e : event) : Prop := match e with ESlice _ _ => False | EPoke => True end.

(** Record types that hold no array. *)
Lemma evs_body : forall pl (C : config -> Prop) t,
  (t <> 9 /\ t <> 16) \/ (forall c, C c -> order_of pl (c_endian c) <> pl_host pl) ->
  evs C not_slice (f_body pl t).
Proof.
  intros pl C t Ht. unfold f_body.
  repeat match goal with
  | |- evs _ _ (if t =? ?k then _ else _) => destruct (N.eqb_spec t k)
  end; apply evs_bind; try (intros; apply evs_ret).
  all: try (unfold f_mmap, f_lost, f_comm, f_exit, f_throttle, f_aux, f_itrace_start, f_lost_samples,
    f_switch_cpu_wide, f_ksymbol, f_bpf_event, f_cgroup, f_aux_output_hw_id; repeat evs_step; fail).
  - apply evs_read.
  - destruct Ht as [Ht|Ht]; [tauto|]. apply evs_sample. intros. now apply evs_array_foreign.
  - apply evs_mmap2.
  - destruct Ht as [Ht|Ht]; [tauto|]. apply evs_namespaces. intros. now apply evs_array_foreign.
  - apply evs_text_poke. exact I.
Qed.

Lemma evs_record_own : forall pl, evs (fun _ => True) (own pl) (f_record pl).
Proof.
  intros pl. unfold f_record. apply evs_bind; [apply evs_noev, noev_header|]. intros h.
  unfold f_record_with_header.
  apply evs_bind; [now apply evs_metadata|]. intros r. apply evs_cfg_bind. intros c Hc.
  apply evs_bind; [|intros; apply evs_ret].
  apply evs_sub; [apply evs_body_own|exact I].
Qed.

Lemma evs_record_with_header : forall pl (C : config -> Prop) h, (forall c m, C c -> C (with_misc c m)) ->
  (h_type h <> 9 /\ h_type h <> 16) \/ (forall c, C c -> order_of pl (c_endian c) <> pl_host pl) ->
  evs C not_slice (f_record_with_header pl h).
Proof.
  intros pl C h Cm Ht. unfold f_record_with_header.
  apply evs_bind; [now apply evs_metadata|]. intros r. apply evs_cfg_bind. intros c Hc.
  apply evs_bind; [|intros; apply evs_ret].
  apply evs_sub; [now apply evs_body|now apply Cm].
Qed.

(** * Running refined parsers on encoded values *)

Definition poke_of (mo : mode) : bool := match mo with Whole => true | _ => false end.

(** Aligned as a place for words, and a multiple of 8 further. *)
Lemma shift_align : forall pl a q, a mod word_align pl = 0 -> q mod 8 = 0 ->
  (a + q) mod align_bytes (pl_align pl) = 0.
Proof.
  intros pl a q Ha Hq. unfold word_align in Ha.
  rewrite N.add_mod by (destruct (pl_align pl); discriminate). rewrite Ha.
  replace (q mod align_bytes (pl_align pl)) with 0; [destruct (pl_align pl); reflexivity|].
  transitivity (0 mod align_bytes (pl_align pl)); [destruct (pl_align pl); reflexivity|].
  apply mod_align. rewrite Hq. reflexivity.
Qed.

Lemma fine_ok : forall pl mo a ev, lends_aligned pl mo a ->
  Forall (ev_fine 0 (poke_of mo)) ev -> Forall (own pl) ev -> Forall (ev_ok mo a) ev.
Proof.
  intros pl mo a ev Hl H Ho. rewrite Forall_forall in H, Ho |- *. intros e He.
  specialize (H e He). specialize (Ho e He).
  destruct e as [al q|]; cbn in H, Ho |- *; [subst al|destruct mo; try reflexivity; discriminate].
  destruct mo; try exact I; try contradiction; now apply shift_align.
Qed.

Section Reads.
Context (pl : platform) {S : Type} (PB : parsebuf S) (mo : mode) (fin : perror) (cap : N)
  (mem : memory).

Lemma reads_quiet : forall A B (R : A -> B -> Prop) (m : M S A) (f : F B) a0 poke p bs b rest a,
  (forall rep, contract PB mo fin cap mem rep -> Ref mo fin cap rep a R m f) ->
  noev f -> Rt a0 poke (mkEnv (p_cfg p) fin) f bs b rest 0 ->
  source PB mo fin cap mem p (bs ++ rest) a ->
  exists v p', m p = (Ok v, p') /\ R v b /\ after PB mo fin cap mem p (len bs) rest a p'.
Proof.
  intros A B R m f a0 poke p bs b rest a HR Hn (ev & E & _) (rep & HC & Hr & Hw).
  rewrite N.add_0_l in E.
  assert (Hq : ev = []) by (eapply noev_ok; eassumption). subst ev.
  destruct (run_ok mo fin cap rep _ _ _ _ _ _ _ _ _ _ _ _ (HR rep HC) Hr Hw E ltac:(constructor))
    as (v & p' & Ep & Hv & Hst).
  exists v, p'. split; [exact Ep|]. split; [exact Hv|]. eapply step_after; eassumption.
Qed.

Lemma reads_aligned : forall A B (R : A -> B -> Prop) (m : M S A) (f : F B) p bs b rest a,
  (forall rep, contract PB mo fin cap mem rep -> Ref mo fin cap rep a R m f) ->
  Rt 0 (poke_of mo) (mkEnv (p_cfg p) fin) f bs b rest 0 -> evs (fun _ => True) (own pl) f ->
  lends_aligned pl mo a ->
  source PB mo fin cap mem p (bs ++ rest) a ->
  exists v p', m p = (Ok v, p') /\ R v b /\ after PB mo fin cap mem p (len bs) rest a p'.
Proof.
  intros A B R m f p bs b rest a HR (ev & E & Hev) Ho Hal (rep & HC & Hr & Hw).
  rewrite N.add_0_l in E. specialize (Ho (mkEnv (p_cfg p) fin) (bs ++ rest) 0 I). rewrite E in Ho.
  assert (Hok : Forall (ev_ok mo a) ev) by now apply (fine_ok pl).
  destruct (run_ok mo fin cap rep _ _ _ _ _ _ _ _ _ _ _ _ (HR rep HC) Hr Hw E Hok)
    as (v & p' & Ep & Hv & Hst).
  exists v, p'. split; [exact Ep|]. split; [exact Hv|]. eapply step_after; eassumption.
Qed.

(** No events at all under the configuration at hand. *)
Lemma reads_evs : forall A B (R : A -> B -> Prop) (m : M S A) (f : F B) a0 poke p bs b rest a,
  (forall rep, contract PB mo fin cap mem rep -> Ref mo fin cap rep a R m f) ->
  evs (fun c => c_endian c = c_endian (p_cfg p)) (fun _ => False) f ->
  Rt a0 poke (mkEnv (p_cfg p) fin) f bs b rest 0 ->
  source PB mo fin cap mem p (bs ++ rest) a ->
  exists v p', m p = (Ok v, p') /\ R v b /\ after PB mo fin cap mem p (len bs) rest a p'.
Proof.
  intros A B R m f a0 poke p bs b rest a HR Hn (ev & E & _) (rep & HC & Hr & Hw).
  rewrite N.add_0_l in E.
  specialize (Hn (mkEnv (p_cfg p) fin) (bs ++ rest) 0 eq_refl). rewrite E in Hn.
  destruct ev as [|e ev]; [|inversion Hn; contradiction].
  destruct (run_ok mo fin cap rep _ _ _ _ _ _ _ _ _ _ _ _ (HR rep HC) Hr Hw E ltac:(constructor))
    as (v & p' & Ep & Hv & Hst).
  exists v, p'. split; [exact Ep|]. split; [exact Hv|]. eapply step_after; eassumption.
Qed.

(** No arrays. *)
Lemma reads_unsliced : forall A B (R : A -> B -> Prop) (m : M S A) (f : F B) a0 p bs b rest a,
  (forall rep, contract PB mo fin cap mem rep -> Ref mo fin cap rep a R m f) ->
  evs (fun _ => True) not_slice f ->
  Rt a0 (poke_of mo) (mkEnv (p_cfg p) fin) f bs b rest 0 ->
  source PB mo fin cap mem p (bs ++ rest) a ->
  exists v p', m p = (Ok v, p') /\ R v b /\ after PB mo fin cap mem p (len bs) rest a p'.
Proof.
  intros A B R m f a0 p bs b rest a HR Hn (ev & E & Hev) (rep & HC & Hr & Hw).
  rewrite N.add_0_l in E.
  specialize (Hn (mkEnv (p_cfg p) fin) (bs ++ rest) 0 I). rewrite E in Hn.
  assert (Hok : Forall (ev_ok mo a) ev).
  { rewrite Forall_forall in Hev, Hn |- *. intros e Hin. specialize (Hev e Hin). specialize (Hn e Hin).
    destruct e; [contradiction|]. cbn in *. destruct mo; try discriminate. reflexivity. }
  destruct (run_ok mo fin cap rep _ _ _ _ _ _ _ _ _ _ _ _ (HR rep HC) Hr Hw E Hok)
    as (v & p' & Ep & Hv & Hst).
  exists v, p'. split; [exact Ep|]. split; [exact Hv|]. eapply step_after; eassumption.
Qed.

(** Bodies that hold no array. *)
Definition no_arrays (b : wbody) : Prop :=
  match b with WSample _ | WNamespaces _ => False | _ => True end.

(** The arrays of [b], if any, are read as they are. *)
Definition lends_fine (c : config) (a : N) (b : wbody) : Prop :=
  lends_aligned pl mo a \/ no_arrays b \/ order_of pl (c_endian c) <> pl_host pl.

Definition events {B : Type} (r : fout B) : list event :=
  match r with FOk _ _ _ ev | FErr _ _ _ ev => ev end.

(** If the events of a record are fine wherever it is aligned, they are on [PB]. *)
Lemma record_events : forall w (p : parser S) m si b rest a,
  let o := order_of pl (c_endian (p_cfg p)) in
  let r := f_record pl (mkEnv (p_cfg p) fin) (w_record o w m si b ++ rest) 0 in
  m < 2 ^ 16 -> wbody_ok w m b -> len (w_record o w m si b) < 2 ^ 16 -> lends_fine (p_cfg p) a b ->
  Forall (ev_fine 0 (poke_of mo)) (events r) ->
  Forall (ev_ok mo a) (events r).
Proof.
  intros w p m si b rest a o r Hm Hok Hlen Hf Hfine.
  destruct Hf as [Hf|Hf].
  - apply (fine_ok pl); try assumption.
    pose proof (evs_record_own pl (mkEnv (p_cfg p) fin) (w_record o w m si b ++ rest) 0 I) as Ho.
    fold r in Ho. destruct r; exact Ho.
  - assert (Hns : Forall not_slice (events r)).
    { unfold r, w_record. unfold w_record in Hlen. cbv zeta in Hlen |- *. rewrite len_app, w_header_len in Hlen.
      set (h := 8 + len (w_body o w b ++ w_trailer o w b si)) in *.
      rewrite <- app_assoc. set (rest' := _ ++ rest).
      unfold f_record. unfold fbind at 1.
      destruct (Rt_header pl a false (mkEnv (p_cfg p) fin) (w_type b) m h rest' 0
        (w_type_small w m b Hok) Hm Hlen) as (ev1 & E1 & _).
      cbn [fe_cfg] in E1. fold o in E1. rewrite E1.
      assert (Hq : ev1 = []) by (eapply noev_ok; [apply noev_header|exact E1]). subst ev1.
      pose proof (evs_record_with_header pl
        (fun c => c_endian c = c_endian (p_cfg p)) (mkHeader (w_type b) m h)) as Hev'.
      specialize (Hev' ltac:(intros c' m' Hc'; exact Hc')).
      cbn [h_type] in Hev'.
      assert (Hcond : w_type b <> 9 /\ w_type b <> 16 \/
        (forall c, c_endian c = c_endian (p_cfg p) -> order_of pl (c_endian c) <> pl_host pl)).
      { destruct Hf as [Hf|Hf].
        - left. destruct b; cbn [no_arrays w_type] in *; try contradiction; try lia.
          destruct Hok as [[Ht|Ht] _]; lia.
        - right. intros c ->. exact Hf. }
      specialize (Hev' Hcond (mkEnv (p_cfg p) fin) rest' (0 + len (w_header o (w_type b) m h)) eq_refl).
      destruct (f_record_with_header _ _ _ _ _); exact Hev'. }
    rewrite Forall_forall in *. intros e Hin. specialize (Hfine e Hin). specialize (Hns e Hin).
    destruct e; [contradiction|]. cbn in *. destruct mo; try discriminate. reflexivity.
Qed.

Lemma record_reads : pl_ok pl -> forall O (V : visitor O) w p m si b rest a,
  let o := order_of pl (c_endian (p_cfg p)) in
  configured (p_cfg p) w -> m < 2 ^ 16 -> sample_id_ok w si -> wbody_ok w m b ->
  readable (pl_host pl) o w (poke_of mo) b -> len (w_record o w m si b) < 2 ^ 16 ->
  lends_fine (p_cfg p) a b ->
  source PB mo fin cap mem p (w_record o w m si b ++ rest) a ->
  exists bc p', parse_record pl PB V p = (deliver V bc (meta_of m si b), p') /\
    view_body bc = expected b /\ ok_body mo mem pl bc /\
    after PB mo fin cap mem p (len (w_record o w m si b)) rest a p'.
Proof.
  intros Hpl O V w p m si b rest a o Hcf Hm Hsi Hok Hr Hlen Hf (rep & HC & Hrep & Hw).
  destruct (Rt_record pl Hpl 0 (poke_of mo) (mkEnv (p_cfg p) fin) w Hcf m si b rest 0)
    as (ev & E & Hfine); try assumption; [reflexivity|]. rewrite N.add_0_l in E. cbn [fe_cfg] in E. fold o in E.
  pose proof (record_events w p m si b rest a Hm Hok Hlen Hf) as Hevok. cbv zeta in Hevok. fold o in Hevok.
  rewrite E in Hevok. cbn [events] in Hevok.
  rewrite <- (N.add_0_r a) in Hrep.
  pose proof (record_flat pl PB mo fin cap mem rep a HC Hpl O V p _ 0 Hrep Hw) as H.
  rewrite E in H.
  destruct (H (Hevok Hfine)) as (bc & p' & E' & Hv & Hb & Hst).
  exists bc, p'. split; [exact E'|]. split; [exact Hv|]. split; [exact Hb|].
  eapply step_after; eassumption.
Qed.

End Reads.
