(** Where in a record its arrays start, and how results on different sources
    compare. *)
From Coq Require Import ZArith NArith List Bool Lia.
From Verif Require Import Base BaseFacts Types Platform Config Buf Parser Contract Flat Refine.
From Verif Require Import Instances Prims Slices Records Sample Record Attr Views RefRecords.
From Verif Require Import RefFrame RefTop ConfFacts Spec NoHint FrameFacts RoundFacts.
Import ListNotations.
Open Scope N_scope.
Ltac Zify.zify_post_hook ::= Z.to_euclidean_division_equations.

(** * Arrays start at multiples of 8 *)

Definition al_ev (e : event) : Prop := match e with ESlice _ q => q mod 8 = 0 | EPoke => True end.

(** From an aligned start: arrays start aligned, and the end is aligned too. *)
Definition al (C : config -> Prop) {B : Type} (f : F B) : Prop :=
  forall env l pos, C (fe_cfg env) -> pos mod 8 = 0 ->
  match f env l pos with
  | FOk _ _ pos' ev => pos' mod 8 = 0 /\ Forall al_ev ev
  | FErr _ _ _ ev => Forall al_ev ev
  end.

(** The same without the end. *)
Definition ale (C : config -> Prop) {B : Type} (f : F B) : Prop :=
  forall env l pos, C (fe_cfg env) -> pos mod 8 = 0 ->
  match f env l pos with FOk _ _ _ ev | FErr _ _ _ ev => Forall al_ev ev end.

(** No arrays, and [n] bytes when there is a result. *)
Definition moves (n : N) {B : Type} (f : F B) : Prop :=
  forall env l pos,
  match f env l pos with FOk _ _ pos' ev => pos' = pos + n /\ ev = [] | FErr _ _ _ ev => ev = [] end.

Lemma moves_eq : forall n k B (f : F B), n = k -> moves n f -> moves k f.
Proof. intros n k B f ->. auto. Qed.
Lemma moves_ret : forall B (b : B), moves 0 (fret b).
Proof. intros B b env l pos. cbn. split; [lia|reflexivity]. Qed.
Lemma moves_cfg : moves 0 fcfg.
Proof. intros env l pos. cbn. split; [lia|reflexivity]. Qed.
Lemma moves_bind : forall n k B D (m : F B) (g : B -> F D),
  moves n m -> (forall b, moves k (g b)) -> moves (n + k) (fbind m g).
Proof.
  intros n k B D m g Hm Hg env l pos. unfold fbind. specialize (Hm env l pos).
  destruct (m env l pos) as [b l1 pos1 ev1|e l1 pos1 ev1]; [|exact Hm].
  destruct Hm as [-> ->]. specialize (Hg b env l1 (pos + n)).
  destruct (g b env l1 (pos + n)) as [d l2 pos2 ev2|e l2 pos2 ev2]; cbn [app]; [|exact Hg].
  destruct Hg as [-> ->]. split; [lia|reflexivity].
Qed.
Lemma moves_take : forall n, moves n (f_take n).
Proof.
  intros n env l pos. unfold f_take. destruct l; [reflexivity|].
  destruct (_ <? n); [reflexivity|]. now split.
Qed.
Lemma moves_uint : forall pl n, moves n (f_uint pl n).
Proof.
  intros pl n. unfold f_uint. apply (moves_eq (n + (0 + 0))); [lia|]. apply moves_bind; [apply moves_take|].
  intros b. apply moves_bind; [apply moves_cfg|]. intros; apply moves_ret.
Qed.

Section Al.
Context (pl : platform) (C : config -> Prop).

Lemma al_moves : forall n B (f : F B), n mod 8 = 0 -> moves n f -> al C f.
Proof.
  intros n B f Hn H env l pos _ Hp. specialize (H env l pos).
  destruct (f env l pos) as [b l' pos' ev|e l' pos' ev].
  - destruct H as [-> ->]. split; [lia|constructor].
  - subst. constructor.
Qed.
Lemma al_ret : forall B (b : B), al C (fret b).
Proof. intros. apply (al_moves 0); [reflexivity|apply moves_ret]. Qed.
Lemma al_fail : forall B e, al C (@ffail B e).
Proof. intros B e env l pos _ _. constructor. Qed.
Lemma al_u64 : al C (f_uint pl 8).
Proof. apply (al_moves 8); [reflexivity|apply moves_uint]. Qed.
Lemma al_bind : forall B D (m : F B) (k : B -> F D), al C m -> (forall b, al C (k b)) -> al C (fbind m k).
Proof.
  intros B D m k Hm Hk env l pos Hc Hp. unfold fbind. specialize (Hm env l pos Hc Hp).
  destruct (m env l pos) as [b l1 pos1 ev1|]; [|exact Hm]. destruct Hm as [Hp1 Hm].
  specialize (Hk b env l1 pos1 Hc Hp1). destruct (k b env l1 pos1).
  - destruct Hk as [Hp2 Hk]. split; [exact Hp2|now apply Forall_app].
  - now apply Forall_app.
Qed.
Lemma al_cfg_bind : forall D (k : config -> F D), (forall c, C c -> al C (k c)) -> al C (fbind fcfg k).
Proof.
  intros D k Hk env l pos Hc Hp. unfold fbind, fcfg. specialize (Hk _ Hc env l pos Hc Hp).
  destruct (k (fe_cfg env) env l pos); exact Hk.
Qed.
Lemma al_if : forall B b (m : F B), al C m -> al C (f_if b m).
Proof.
  intros B [] m H; unfold f_if; [|apply al_ret].
  apply al_bind; [exact H|]. intros x; apply al_ret.
Qed.
Lemma al_array : forall B (E : felem B) n, fl_size E mod 8 = 0 -> al C (f_array pl E n).
Proof.
  intros B E n HE env l pos _ Hp. unfold f_array. cbv zeta.
  destruct (_ && _); [constructor|]. destruct (_ && _); [constructor|].
  destruct (_ <? _); [constructor|]. split.
  - rewrite N.add_mod, N.mul_mod, HE, N.mul_0_r by discriminate. now rewrite Hp.
  - destruct (_ && _); constructor; [exact Hp|constructor].
Qed.

Lemma ale_al : forall B (f : F B), al C f -> ale C f.
Proof.
  intros B f H env l pos Hc Hp. specialize (H env l pos Hc Hp).
  destruct (f env l pos); tauto.
Qed.
Lemma ale_evs : forall B (f : F B), evs C al_ev f -> ale C f.
Proof. intros B f H env l pos Hc _. exact (H env l pos Hc). Qed.
Lemma ale_bind : forall B D (m : F B) (k : B -> F D),
  al C m -> (forall b, ale C (k b)) -> ale C (fbind m k).
Proof.
  intros B D m k Hm Hk env l pos Hc Hp. unfold fbind. specialize (Hm env l pos Hc Hp).
  destruct (m env l pos) as [b l1 pos1 ev1|]; [|exact Hm]. destruct Hm as [Hp1 Hm].
  specialize (Hk b env l1 pos1 Hc Hp1). destruct (k b env l1 pos1); now apply Forall_app.
Qed.
Lemma ale_bind_evs : forall B D (m : F B) (k : B -> F D),
  ale C m -> (forall b, evs C al_ev (k b)) -> ale C (fbind m k).
Proof.
  intros B D m k Hm Hk env l pos Hc Hp. unfold fbind. specialize (Hm env l pos Hc Hp).
  destruct (m env l pos) as [b l1 pos1 ev1|]; [|exact Hm].
  specialize (Hk b env l1 pos1 Hc). destruct (k b env l1 pos1); now apply Forall_app.
Qed.
Lemma ale_cfg_bind : forall D (k : config -> F D), (forall c, C c -> ale C (k c)) -> ale C (fbind fcfg k).
Proof.
  intros D k Hk env l pos Hc Hp. unfold fbind, fcfg. specialize (Hk _ Hc env l pos Hc Hp).
  destruct (k (fe_cfg env) env l pos); exact Hk.
Qed.

(** Two 32-bit fields that are there together. *)
Lemma ale_pair : forall D b (k : option N -> option N -> F D),
  (forall x y, ale C (k x y)) ->
  ale C (x <~ f_if b (f_uint pl 4) ;; y <~ f_if b (f_uint pl 4) ;; k x y).
Proof.
  intros D b k Hk.
  assert (H : al C (x <~ f_if b (f_uint pl 4) ;; y <~ f_if b (f_uint pl 4) ;; fret (x, y))).
  { apply (al_moves (if b then 8 else 0)); [now destruct b|]. destruct b; unfold f_if.
    - change 8 with ((4 + 0) + ((4 + 0) + 0)).
      repeat first [apply moves_uint | apply moves_ret | apply moves_bind; [|intros ?]].
    - change 0 with (0 + (0 + 0)).
      repeat first [apply moves_ret | apply moves_bind; [|intros ?]]. }
  intros env l pos Hc Hp. specialize (H env l pos Hc Hp). unfold fbind in *.
  destruct (f_if b (f_uint pl 4) env l pos) as [x l1 pos1 ev1|]; [|exact H].
  destruct (f_if b (f_uint pl 4) env l1 pos1) as [y l2 pos2 ev2|]; [|exact H].
  cbn [fret] in H. rewrite app_nil_r in H. destruct H as [Hp2 He].
  specialize (Hk x y env l2 pos2 Hc Hp2). apply Forall_app in He as [He1 He2].
  destruct (k x y env l2 pos2); rewrite !Forall_app; tauto.
Qed.

Lemma al_read_value : al C (f_read_value pl).
Proof.
  unfold f_read_value. apply al_cfg_bind. intros c Hc. cbv zeta. destruct (contains _ _); [apply al_fail|].
  destruct (negb _); [apply al_fail|].
  repeat first [apply al_ret | apply al_u64 | apply al_if | apply al_bind; [|intros ?]].
Qed.
Lemma al_read_group : al C (f_read_group pl).
Proof.
  unfold f_read_group. apply al_cfg_bind. intros c Hc. cbv zeta. destruct (negb _); [apply al_fail|].
  destruct (negb _); [apply al_fail|].
  repeat first [apply al_ret | apply al_u64 | apply al_if | apply al_bind; [|intros ?]].
  destruct (_ <? _); [apply al_fail|]. apply al_bind; [now apply al_array|intros; apply al_ret].
Qed.
Lemma al_sample_read : al C (f_sample_read pl).
Proof.
  unfold f_sample_read. apply al_cfg_bind. intros c Hc. destruct (contains _ _); [apply al_read_group|].
  apply al_bind; [apply al_read_value|intros; apply al_ret].
Qed.
Lemma al_registers : forall mask, al C (f_registers pl mask).
Proof.
  intros mask. apply al_bind; [apply al_u64|]. intros abi.
  apply al_bind; [now apply al_array|intros; apply al_ret].
Qed.
Lemma al_callchain : al C (f_callchain pl).
Proof. apply al_bind; [apply al_u64|]. intros n. now apply al_array. Qed.
Lemma al_lbr : forall hw, al C (f_lbr pl hw).
Proof.
  intros hw. apply al_bind; [apply al_u64|]. intros n. apply al_bind; [apply al_if, al_u64|]. intros h.
  apply al_bind; [now apply al_array|intros; apply al_ret].
Qed.
Lemma al_raw : al C (f_raw pl).
Proof.
  intros env l pos _ Hp. unfold f_raw, f_padded, fbind at 1.
  assert (Hm : forall env l pos, match (n <~ f_uint pl 4 ;; f_take (as_usize pl n)) env l pos with
    | FOk _ _ pos' ev => pos <= pos' /\ ev = [] | FErr _ _ _ ev => ev = [] end).
  { clear. intros env l pos. unfold fbind. pose proof (moves_uint pl 4 env l pos) as H.
    destruct (f_uint pl 4 env l pos) as [n l1 pos1 ev1|]; [|exact H]. destruct H as [-> ->].
    pose proof (moves_take (as_usize pl n) env l1 (pos + 4)) as H.
    destruct (f_take _ env l1 (pos + 4)) as [b l2 pos2 ev2|]; [|exact H]. destruct H as [-> ->].
    split; [lia|reflexivity]. }
  specialize (Hm env l pos).
  destruct ((n <~ f_uint pl 4 ;; f_take (as_usize pl n)) env l pos) as [b l1 pos1 ev1|e l1 pos1 ev1];
    [|subst; constructor].
  destruct Hm as [Hle ->]. cbn [app].
  set (k := if (pos1 - pos) mod 8 =? 0 then 0 else 8 - (pos1 - pos) mod 8).
  assert (Hk : (pos1 + k) mod 8 = 0).
  { subst k. destruct ((pos1 - pos) mod 8 =? 0) eqn:E.
    - apply N.eqb_eq in E. lia.
    - apply N.eqb_neq in E. lia. }
  assert (Hs : moves k (f_skip k)).
  { unfold f_skip. destruct (N.eqb_spec k 0) as [->|]; [apply moves_ret|].
    apply (moves_eq (k + 0)); [lia|]. apply moves_bind; [apply moves_take|intros; apply moves_ret]. }
  unfold fbind. specialize (Hs env l1 pos1).
  destruct (f_skip k env l1 pos1) as [u l2 pos2 ev2|e l2 pos2 ev2].
  - destruct Hs as [-> ->]. cbn. split; [exact Hk|constructor].
  - subst. constructor.
Qed.
Lemma al_cpu : al C (a <~ f_uint pl 4 ;; _ <~ f_uint pl 4 ;; fret a).
Proof.
  apply (al_moves (4 + (4 + 0))); [reflexivity|].
  repeat first [apply moves_ret | apply moves_uint | apply moves_bind; [|intros ?]].
Qed.

Context (HC : forall c, C c ->
  contains (sample_type c) SF_STACK_USER && contains (sample_type c) SF_REGS_INTR = false).

Lemma ale_sample : ale C (f_sample pl).
Proof.
  unfold f_sample. apply ale_cfg_bind. intros c Hc. cbv zeta. specialize (HC c Hc).
  set (sty := sample_type c) in *.
  repeat first
    [ apply ale_pair; intros ? ?
    | lazymatch goal with |- ale _ (fbind (f_if (contains sty SF_STACK_USER) _) _) => fail
      | _ => apply ale_bind; [apply al_if; first [apply al_u64 | apply al_cpu | apply al_sample_read
               | apply al_callchain | apply al_raw | apply al_lbr | apply al_registers]|intros ?] end ].
  destruct (contains sty SF_STACK_USER).
  - cbn [andb] in HC. rewrite HC. apply ale_evs.
    apply evs_bind; [apply evs_if, evs_stack|intros ?].
    repeat first [ apply evs_ret | apply evs_uint | apply evs_if | apply evs_aux
                 | apply evs_bind; [|intros ?] ].
  - apply ale_bind; [apply al_ret|]. intros ?.
    repeat (apply ale_bind; [apply al_if; first [apply al_u64 | apply al_registers]|intros ?]).
    apply ale_evs. apply evs_bind; [apply evs_if, evs_aux|intros ?; apply evs_ret].
Qed.

Lemma ale_namespaces : ale C (f_namespaces pl).
Proof.
  intros env l pos Hc Hp. unfold f_namespaces.
  assert (H : al C (x <~ f_uint pl 4 ;; y <~ f_uint pl 4 ;; n <~ f_uint pl 8 ;; fret (x, y, n))).
  { apply (al_moves (4 + (4 + (8 + 0)))); [reflexivity|].
    repeat first [apply moves_ret | apply moves_uint | apply moves_bind; [|intros ?]]. }
  specialize (H env l pos Hc Hp). unfold fbind at 1. unfold fbind at 1 in H.
  destruct (f_uint pl 4 env l pos) as [x l1 pos1 ev1|]; [|exact H].
  unfold fbind at 1. unfold fbind at 1 in H.
  destruct (f_uint pl 4 env l1 pos1) as [y l2 pos2 ev2|]; [|exact H].
  unfold fbind at 1. unfold fbind at 1 in H.
  destruct (f_uint pl 8 env l2 pos2) as [n l3 pos3 ev3|]; [|exact H].
  cbn [fret] in H. destruct H as [Hp3 He].
  assert (Ha : al C (v <~ f_array pl fl_ns (as_usize pl n) ;; fret (mkNamespaces x y v))).
  { apply al_bind; [now apply al_array|intros; apply al_ret]. }
  specialize (Ha env l3 pos3 Hc Hp3). rewrite app_nil_r in He.
  destruct ((v <~ f_array pl fl_ns (as_usize pl n) ;; fret (mkNamespaces x y v)) env l3 pos3);
    rewrite !Forall_app in *; tauto.
Qed.
End Al.

Lemma ale_body : forall pl (C : config -> Prop) t,
  (forall c, C c -> t = 9 ->
    contains (sample_type c) SF_STACK_USER && contains (sample_type c) SF_REGS_INTR = false) ->
  ale C (f_body pl t).
Proof.
  intros pl C t HC.
  destruct (N.eq_dec t 9) as [->|N9].
  { change (f_body pl 9) with (r <~ f_sample pl ;; fret (@BSample list r)).
    apply ale_bind_evs; [|intros; apply evs_ret].
    apply ale_sample. intros c Hc. now apply HC. }
  destruct (N.eq_dec t 16) as [->|N16].
  { change (f_body pl 16) with (r <~ f_namespaces pl ;; fret (@BNamespaces list r)).
    apply ale_bind_evs; [|intros; apply evs_ret]. apply ale_namespaces. }
  apply ale_evs. intros env l pos Hc.
  assert (H : evs C not_slice (f_body pl t)) by (apply evs_body; left; now split).
  specialize (H env l pos Hc). destruct (f_body pl t env l pos).
  all: revert H; apply Forall_impl; intros []; cbn; tauto.
Qed.

(** * No arrays: only TEXT_POKE leaves an event *)

Lemma evs_body_quiet : forall pl (C : config -> Prop) (P : event -> Prop) t,
  (t <> 9 /\ t <> 16) \/ (forall c, C c -> order_of pl (c_endian c) <> pl_host pl) ->
  (t = 20 -> P EPoke) -> evs C P (f_body pl t).
Proof.
  intros pl C P t Ht HP. unfold f_body.
  repeat match goal with
  | |- evs _ _ (if t =? ?k then _ else _) => destruct (N.eqb_spec t k)
  end; apply evs_bind; try (intros; apply evs_ret).
  all: try (unfold f_mmap, f_lost, f_comm, f_exit, f_throttle, f_aux, f_itrace_start, f_lost_samples,
    f_switch_cpu_wide, f_ksymbol, f_bpf_event, f_cgroup, f_aux_output_hw_id; repeat evs_step; fail).
  - apply evs_read.
  - destruct Ht as [Ht|Ht]; [tauto|]. apply evs_sample. intros. now apply evs_array_foreign.
  - apply evs_mmap2.
  - destruct Ht as [Ht|Ht]; [tauto|]. apply evs_namespaces. intros. now apply evs_array_foreign.
  - apply evs_text_poke. now apply HP.
Qed.

Lemma evs_body_poke : forall pl t,
  evs (fun _ => True) (fun e => t = 20 \/ e <> EPoke) (f_body pl t).
Proof.
  intros pl t. destruct (N.eq_dec t 20) as [E|E].
  { apply evs_body_quiet; [left; split; rewrite E; discriminate|]. auto. }
  assert (Ha : forall B (FE : felem B) n,
    evs (fun _ => True) (fun e => t = 20 \/ e <> EPoke) (f_array pl FE n)).
  { intros B FE n env l pos _. unfold f_array. cbv zeta. destruct (_ && _); [constructor|].
    destruct (_ && _); [constructor|]. destruct (_ <? _); [constructor|].
    destruct (_ && _); [apply Forall_cons; [right; discriminate|]|]; apply Forall_nil. }
  unfold f_body.
  repeat match goal with
  | |- evs _ _ (if t =? ?k then _ else _) => destruct (N.eqb_spec t k)
  end; try contradiction; apply evs_bind; try (intros; apply evs_ret).
  all: try (unfold f_mmap, f_lost, f_comm, f_exit, f_throttle, f_aux, f_itrace_start,
    f_lost_samples, f_switch_cpu_wide, f_ksymbol, f_bpf_event, f_cgroup, f_aux_output_hw_id;
    repeat evs_step; fail).
  - apply evs_read.
  - now apply evs_sample.
  - apply evs_mmap2.
  - now apply evs_namespaces.
Qed.

(** * Events of a whole record *)

Lemma metadata_start : forall pl h env l pos st md l' pos' ev,
  f_metadata_with_header pl h env l pos = FOk (st, md) l' pos' ev ->
  snd st = pos /\ exists n, fst st = take n l.
Proof.
  assert (Hsp : forall n env l pos st l' pos' ev, f_split n env l pos = FOk st l' pos' ev ->
    snd st = pos /\ fst st = take n l).
  { intros n env l pos st l' pos' ev H. unfold f_split in H. destruct (N.eqb_spec n 0) as [->|Hn].
    - injection H as <- _ _ _. now rewrite take_0.
    - unfold f_take in H. destruct l as [|x l]; [discriminate|]. destruct (_ <? n); [discriminate|].
      injection H as <- _ _ _. auto. }
  intros pl h env l pos st md l' pos' ev H. unfold f_metadata_with_header in H.
  destruct (h_size h <? 8); [discriminate|]. unfold fbind at 1 in H.
  destruct (f_split (h_size h - 8) env l pos) as [st1 l1 pos1 ev1|] eqn:E1; [|discriminate].
  apply Hsp in E1 as [E1 F1]. destruct (_ || _).
  - cbn [fret] in H. injection H as <- _ _ _ _. eauto.
  - unfold fbind at 1 in H. cbn [fcfg] in H. destruct (_ <? _); [discriminate|].
    unfold fbind at 1 in H. unfold f_sub in H.
    match type of H with context [match (?m ?e ?x ?y) with _ => _ end] =>
      destruct (m e x y) as [[b si] l2 pos2 ev2|] eqn:E2; [|discriminate] end.
    unfold fbind at 1 in E2.
    destruct (f_split _ _ (fst st1) (snd st1)) as [b1 l3 pos3 ev3|] eqn:E3; [|discriminate].
    apply Hsp in E3 as [E3 F3]. unfold fbind in E2.
    destruct (f_sample_id pl _ l3 pos3); [|discriminate]. cbn [fret] in E2.
    injection E2 as <- _ _ _ _. cbn in H. injection H as <- _ _ _ _.
    split; [congruence|]. rewrite F3, F1, take_take. eauto.
Qed.

Lemma uint_inv : forall pl n env l pos v l' pos' ev, f_uint pl n env l pos = FOk v l' pos' ev ->
  v = from_order (order_of pl (c_endian (fe_cfg env))) (take n l) /\ l' = drop n l /\ n <= len l /\ ev = [].
Proof.
  intros pl n env l pos v l' pos' ev H. unfold f_uint, fbind, f_take in H.
  destruct l as [|x l]; [discriminate|]. destruct (N.ltb_spec (len (x :: l)) n); [discriminate|].
  cbn [fcfg fret] in H. injection H as <- <- _ <-. auto.
Qed.

Lemma header_left : forall pl env l pos h l' pos' ev,
  f_header pl env l pos = FOk h l' pos' ev -> l' = drop 8 l.
Proof.
  intros pl env l pos h l' pos' ev H. unfold f_header, fbind in H.
  destruct (f_uint pl 4 env l pos) as [x1 l1 q1 e1|] eqn:E1; [|discriminate].
  destruct (f_uint pl 2 env l1 q1) as [x2 l2 q2 e2|] eqn:E2; [|discriminate].
  destruct (f_uint pl 2 env l2 q2) as [x3 l3 q3 e3|] eqn:E3; [|discriminate].
  cbn [fret] in H. injection H as _ <- _ _.
  apply uint_inv in E1 as (_ & -> & _), E2 as (_ & -> & _), E3 as (_ & -> & _). now rewrite !drop_drop.
Qed.

Lemma header_type : forall pl env l pos h l' pos' ev,
  f_header pl env l pos = FOk h l' pos' ev ->
  h_type h = from_order (order_of pl (c_endian (fe_cfg env))) (take 4 l) /\ pos' = pos + 8 /\ ev = [].
Proof.
  intros pl env l pos h l' pos' ev H.
  assert (Hm : moves (4 + (2 + (2 + 0))) (f_header pl)).
  { repeat first [apply moves_ret | apply moves_uint | apply moves_bind; [|intros ?]]. }
  specialize (Hm env l pos). rewrite H in Hm. destruct Hm as [-> ->].
  split; [|split; reflexivity]. unfold f_header, fbind at 1 in H.
  unfold f_uint at 1, fbind at 1 in H. unfold f_take at 1 in H. destruct l as [|x l]; [discriminate|].
  destruct (len (x :: l) <? 4); [discriminate|]. cbn [fbind fcfg fret] in H.
  revert H. unfold fbind, fcfg, fret. generalize (from_order (order_of pl (c_endian (fe_cfg env))) (take 4 (x :: l))).
  intros t. destruct (f_uint pl 2 _ _ _); [|discriminate]. destruct (f_uint pl 2 _ _ _); [|discriminate].
  intros H. now injection H as <- _ _ _.
Qed.

(** A TEXT_POKE body with two parts leaves no event. *)
Lemma text_poke_events : forall pl env l pos,
  let o := order_of pl (c_endian (fe_cfg env)) in
  (12 <= len l -> from_order o (take 2 (drop 8 l)) <> 0 /\ from_order o (take 2 (drop 10 l)) <> 0) ->
  match f_text_poke pl env l pos with FOk _ _ _ ev | FErr _ _ _ ev => ev = [] end.
Proof.
  intros pl env l pos o H. unfold f_text_poke, fbind.
  pose proof (noev_uint pl 8 env l pos) as Hn.
  destruct (f_uint pl 8 env l pos) as [x1 l1 q1 e1|] eqn:E1; [|exact Hn]. clear Hn.
  pose proof (noev_uint pl 2 env l1 q1) as Hn.
  destruct (f_uint pl 2 env l1 q1) as [ol l2 q2 e2|] eqn:E2; [|subst; apply uint_inv in E1 as (_ & _ & _ & ->); reflexivity].
  clear Hn. pose proof (noev_uint pl 2 env l2 q2) as Hn.
  apply uint_inv in E1 as (_ & -> & L1 & ->), E2 as (Eo & -> & L2 & ->).
  destruct (f_uint pl 2 env _ q2) as [nl l3 q3 e3|] eqn:E3; [|subst; reflexivity]. clear Hn.
  apply uint_inv in E3 as (En & -> & L3 & ->). rewrite !drop_drop, !len_drop in *.
  change (8 + 2) with 10 in *. change (10 + 2) with 12 in *. fold o in Eo, En.
  destruct H as [H1 H2]; [lia|]. rewrite <- Eo in H1. rewrite <- En in H2. clear Eo En.
  assert (Hf : ol < round_up_mod (ol + nl) 4 8) by (pose proof (round_up_bound (ol + nl)); lia).
  cbv zeta. pose proof (noev_take (round_up_mod (ol + nl) 4 8) env (drop 12 l) q3) as Hn.
  destruct (f_take _ _ _ _) as [b l4 q4 e4|e l4 q4 e4]; subst e4; [|reflexivity].
  unfold f_event, fret.
  replace (ol =? 0) with false by (symmetry; apply N.eqb_neq; lia).
  replace (ol =? round_up_mod (ol + nl) 4 8) with false by (symmetry; apply N.eqb_neq; lia).
  reflexivity.
Qed.

(** A TEXT_POKE record in which both parts are not empty. *)
Definition two_parts (o : order) (l : list N) : Prop :=
  from_order o (take 2 (drop 16 l)) <> 0 /\ from_order o (take 2 (drop 18 l)) <> 0.

(** The conditions under which a source of mode [mo] at position [a] gives what
    the bytes say for the record [l] starts with. *)
Definition tame (pl : platform) (c : config) (mo : mode) (a : N) (l : list N) : Prop :=
  let o := order_of pl (c_endian c) in
  let t := from_order o (take 4 l) in
  (t = 20 -> mo = Whole \/ two_parts o l) /\
  ((t <> 9 /\ t <> 16) \/ o <> pl_host pl \/ mo = NoExt \/
   ((mo = Whole \/ mo = Coh) /\ a mod word_align pl = 0 /\
    (t = 9 -> contains (sample_type c) SF_STACK_USER && contains (sample_type c) SF_REGS_INTR = false))).

Lemma drop_take_2 : forall k n (l : list N), k + 2 <= len (take n l) ->
  take 2 (drop k (take n l)) = take 2 (drop k l).
Proof.
  intros k n l H. rewrite len_take in H. rewrite drop_take, take_take. f_equal. lia.
Qed.

Lemma record_events : forall pl mo a env l,
  tame pl (fe_cfg env) mo a l ->
  match f_record pl env l 0 with FOk _ _ _ ev | FErr _ _ _ ev => Forall (ev_ok mo a) ev end.
Proof.
  intros pl mo a env l Ht. unfold tame in Ht. cbv zeta in Ht.
  set (o := order_of pl (c_endian (fe_cfg env))) in *. unfold f_record, fbind at 1.
  pose proof (noev_header pl env l 0) as Hn.
  destruct (f_header pl env l 0) as [h l1 pos1 ev1|] eqn:E1; [|subst; constructor].
  destruct (header_type _ _ _ _ _ _ _ _ E1) as (Ety & Ep & _).
  apply header_left in E1. fold o in Ety. rewrite <- Ety in Ht.
  rewrite N.add_0_l in Ep. subst ev1 pos1 l1. cbn [app].
  unfold f_record_with_header, fbind at 1.
  pose proof (noev_metadata_with_header pl h env (drop 8 l) 8) as Hn.
  destruct (f_metadata_with_header pl h env (drop 8 l) 8) as [[st md] l2 pos2 ev2|] eqn:E2;
    [|subst; constructor].
  apply metadata_start in E2 as (E2 & k & E3). subst ev2. cbn [app fst snd].
  unfold fbind, fcfg, fret, f_sub.
  set (c' := with_misc (fe_cfg env) (h_misc h)).
  assert (G : match f_body pl (h_type h) (mkEnv c' eof_error) (fst st) (snd st) with
    FOk _ _ _ ev | FErr _ _ _ ev => Forall (ev_ok mo a) ev end).
  { rewrite E2. destruct Ht as [Hp Ht].
    destruct (N.eq_dec (h_type h) 20) as [E20|E20].
    { destruct (Hp E20) as [Hw|[P1 P2]].
      - assert (H : evs (fun _ => True) (ev_ok mo a) (f_body pl (h_type h)))
          by (apply evs_body_quiet; [left; rewrite E20; split; discriminate|intros _; exact Hw]).
        exact (H (mkEnv c' eof_error) (fst st) 8 I).
      - rewrite E20. change (f_body pl 20) with (r <~ f_text_poke pl ;; fret (@BTextPoke list r)).
        assert (H : match f_text_poke pl (mkEnv c' eof_error) (fst st) 8 with
                    FOk _ _ _ ev | FErr _ _ _ ev => ev = [] end).
        { apply text_poke_events. cbn [fe_cfg]. change (order_of pl (c_endian c')) with o.
          intros Hl. rewrite E3 in *. rewrite !drop_take_2, !drop_drop by lia. split; assumption. }
        unfold fbind. destruct (f_text_poke pl _ _ _); subst; constructor. }
    assert (Hq : forall ev, Forall (fun e => h_type h = 20 \/ e <> EPoke) ev ->
                 Forall (fun e => match e with ESlice al q => ev_ok mo a (ESlice al q) | EPoke => True end) ev ->
                 Forall (ev_ok mo a) ev).
    { intros ev H1 H2. rewrite Forall_forall in *. intros v Hv. specialize (H1 v Hv). specialize (H2 v Hv).
      destruct v; [exact H2|]. destruct H1 as [H1|H1]; [contradiction|now contradiction H1]. }
    pose proof (evs_body_poke pl (h_type h) (mkEnv c' eof_error) (fst st) 8 I) as H1.
    assert (H2 : match f_body pl (h_type h) (mkEnv c' eof_error) (fst st) 8 with
                 FOk _ _ _ ev | FErr _ _ _ ev =>
                 Forall (fun e => match e with ESlice al q => ev_ok mo a (ESlice al q) | EPoke => True end) ev end).
    { destruct Ht as [Hs|[Hs|[Hs|(Hm & Ha & Hs)]]].
      - assert (H : evs (fun _ => True)
            (fun e => match e with ESlice al q => ev_ok mo a (ESlice al q) | EPoke => True end) (f_body pl (h_type h)))
          by (apply evs_body_quiet; [now left|intros; exact I]).
        exact (H (mkEnv c' eof_error) (fst st) 8 I).
      - assert (H : evs (fun c => order_of pl (c_endian c) <> pl_host pl)
            (fun e => match e with ESlice al q => ev_ok mo a (ESlice al q) | EPoke => True end) (f_body pl (h_type h)))
          by (apply evs_body_quiet; [right; auto|intros; exact I]).
        exact (H (mkEnv c' eof_error) (fst st) 8 Hs).
      - destruct (f_body pl (h_type h) _ _ _); apply Forall_forall; intros [al q|] _; subst mo; exact I.
      - assert (H : ale (fun c => sample_type c = sample_type (fe_cfg env)) (f_body pl (h_type h))).
        { apply ale_body. intros c -> Ec. now apply Hs. }
        specialize (H (mkEnv c' eof_error) (fst st) 8 (with_misc_sample_type _ _) eq_refl).
        pose proof (evs_body_own pl (fun _ => True) (h_type h) (mkEnv c' eof_error) (fst st) 8 I) as Ho.
        assert (Hq' : forall ev, Forall al_ev ev -> Forall (own pl) ev ->
          Forall (fun e => match e with ESlice al q => ev_ok mo a (ESlice al q) | EPoke => True end) ev).
        { intros ev G1 G2. rewrite Forall_forall in *. intros v Hv. specialize (G1 v Hv). specialize (G2 v Hv).
          destruct v as [al q|]; [|exact I]. cbn in G1, G2. subst al.
          destruct Hm as [-> | ->]; cbn [ev_ok]; now apply shift_align. }
        destruct (f_body pl (h_type h) _ _ _); now apply Hq'. }
    destruct (f_body pl (h_type h) _ _ _); now apply Hq. }
  destruct (f_body pl (h_type h) (mkEnv c' eof_error) (fst st) (snd st)) as [b lx px evx|e lx px evx];
    [|exact G]. rewrite app_nil_r. exact G.
Qed.

(** * Only the bytes of the record matter *)

Definition same_out {B : Type} (x y : fout B) : Prop :=
  match x, y with
  | FOk b _ p ev, FOk b' _ p' ev' => b = b' /\ p = p' /\ ev = ev'
  | FErr e _ p ev, FErr e' _ p' ev' => e = e' /\ p = p' /\ ev = ev'
  | _, _ => False
  end.

Lemma take_app_1 : forall n env r x pos, r <> [] -> n <= len r ->
  f_take n env (r ++ x) pos = FOk (take n r) (drop n r ++ x) (pos + n) [].
Proof.
  intros n env r x pos Hr Hn. unfold f_take. destruct (r ++ x) as [|y t] eqn:E.
  - destruct r; [contradiction|discriminate].
  - rewrite <- E. replace (len (r ++ x) <? n) with false
      by (symmetry; apply N.ltb_ge; rewrite len_app; lia).
    rewrite take_app_le, drop_app_le by exact Hn. reflexivity.
Qed.

Lemma uint_app_1 : forall pl n c fin r x pos, r <> [] -> n <= len r ->
  f_uint pl n (mkEnv c fin) (r ++ x) pos =
  FOk (from_order (order_of pl (c_endian c)) (take n r)) (drop n r ++ x) (pos + n) [].
Proof.
  intros pl n c fin r x pos Hr Hn. unfold f_uint, fbind at 1. rewrite take_app_1 by assumption. reflexivity.
Qed.

Lemma drop_nonempty : forall n (r : list N), n < len r -> drop n r <> [].
Proof. intros n r H E. pose proof (len_drop n r) as L. rewrite E in L. cbn in L. lia. Qed.

Lemma header_app_1 : forall pl c fin r x pos, 8 <= len r ->
  let o := order_of pl (c_endian c) in
  f_header pl (mkEnv c fin) (r ++ x) pos =
  FOk (mkHeader (from_order o (take 4 r)) (from_order o (take 2 (drop 4 r))) (from_order o (take 2 (drop 6 r))))
      (drop 8 r ++ x) (pos + 8) [].
Proof.
  intros pl c fin r x pos Hr o. unfold f_header, fbind at 1.
  rewrite uint_app_1 by (try (intros ->; cbn in Hr); lia). unfold fbind at 1.
  rewrite uint_app_1 by (try (apply drop_nonempty; lia); rewrite len_drop; lia). unfold fbind at 1.
  rewrite uint_app_1 by (rewrite drop_drop; try (apply drop_nonempty; lia); rewrite len_drop; lia).
  unfold fret. cbn [app]. rewrite !drop_drop. replace (pos + 4 + 2 + 2) with (pos + 8) by lia. reflexivity.
Qed.

Lemma split_app_1 : forall n env r x pos, n <= len r ->
  f_split n env (r ++ x) pos = FOk (take n r, pos) (drop n r ++ x) (pos + n) [].
Proof.
  intros n env r x pos Hn. unfold f_split. destruct (N.eqb_spec n 0) as [->|H0].
  - rewrite take_0, drop_0, N.add_0_r. reflexivity.
  - rewrite take_app_1; [reflexivity| |exact Hn]. intros ->. cbn in Hn. lia.
Qed.

(** Parsers that do not look at the source itself. *)
Definition blind {B : Type} (f : F B) : Prop :=
  forall c fin1 fin2 l1 l2 pos, same_out (f (mkEnv c fin1) l1 pos) (f (mkEnv c fin2) l2 pos).

Lemma blind_ret : forall B (b : B), blind (fret b).
Proof. intros B b c f1 f2 l1 l2 pos. cbn. auto. Qed.
Lemma blind_fail : forall B e, blind (@ffail B e).
Proof. intros B b c f1 f2 l1 l2 pos. cbn. auto. Qed.
Lemma blind_cfg : blind fcfg.
Proof. intros c f1 f2 l1 l2 pos. cbn. auto. Qed.
Lemma blind_sub : forall B (m : F B) c st, blind (f_sub m c st).
Proof.
  intros B m c st c0 f1 f2 l1 l2 pos. unfold f_sub.
  destruct (m (mkEnv c eof_error) (fst st) (snd st)); cbn; auto.
Qed.
Lemma same_bind : forall B D (m : F B) (k : B -> F D) c fin1 fin2 l1 l2 pos,
  same_out (m (mkEnv c fin1) l1 pos) (m (mkEnv c fin2) l2 pos) -> (forall b, blind (k b)) ->
  same_out (fbind m k (mkEnv c fin1) l1 pos) (fbind m k (mkEnv c fin2) l2 pos).
Proof.
  intros B D m k c f1 f2 l1 l2 pos Hm Hk. unfold fbind.
  destruct (m (mkEnv c f1) l1 pos) as [b1 r1 q1 v1|e1 r1 q1 v1];
  destruct (m (mkEnv c f2) l2 pos) as [b2 r2 q2 v2|e2 r2 q2 v2]; cbn in Hm; try contradiction;
  destruct Hm as (-> & -> & ->); [|cbn; auto].
  specialize (Hk b2 c f1 f2 r1 r2 q2).
  destruct (k b2 (mkEnv c f1) r1 q2); destruct (k b2 (mkEnv c f2) r2 q2); cbn in *; try contradiction;
  destruct Hk as (-> & -> & ->); auto.
Qed.
Lemma blind_bind : forall B D (m : F B) (k : B -> F D), blind m -> (forall b, blind (k b)) -> blind (fbind m k).
Proof. intros B D m k Hm Hk c f1 f2 l1 l2 pos. apply same_bind; [apply Hm|exact Hk]. Qed.

Lemma record_local : forall pl c fin1 fin2 r x1 x2, 8 <= len r ->
  from_order (order_of pl (c_endian c)) (take 2 (drop 6 r)) <= len r ->
  same_out (f_record pl (mkEnv c fin1) (r ++ x1) 0) (f_record pl (mkEnv c fin2) (r ++ x2) 0).
Proof.
  intros pl c fin1 fin2 r x1 x2 Hr Hs. unfold f_record, fbind.
  rewrite !header_app_1 by exact Hr. cbv zeta.
  set (h := mkHeader _ _ _). change (from_order _ (take 2 (drop 6 r))) with (h_size h) in Hs.
  clearbody h.
  assert (G : same_out (f_record_with_header pl h (mkEnv c fin1) (drop 8 r ++ x1) (0 + 8))
                       (f_record_with_header pl h (mkEnv c fin2) (drop 8 r ++ x2) (0 + 8))).
  { unfold f_record_with_header. apply same_bind.
    2: { intros b. repeat first [apply blind_ret|apply blind_cfg|apply blind_sub|apply blind_bind; [|intros ?]]. }
    unfold f_metadata_with_header. destruct (N.ltb_spec (h_size h) 8); [cbn; auto|].
    apply same_bind.
    - rewrite !split_app_1 by (rewrite len_drop; lia). cbn. auto.
    - intros st. destruct (_ || _); [apply blind_ret|]. apply blind_bind; [apply blind_cfg|].
      intros c'. destruct (_ <? _); [apply blind_fail|].
      repeat first [apply blind_ret|apply blind_sub|apply blind_bind; [|intros ?]]. }
  destruct (f_record_with_header pl h (mkEnv c fin1) _ _); destruct (f_record_with_header pl h (mkEnv c fin2) _ _);
    cbn in *; tauto.
Qed.
