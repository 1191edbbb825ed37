(** What can be read off the texts of Show.v. *)
From Coq Require Import String NArith List Bool Lia.
From Verif Require Import Base BaseFacts Types Platform Config Records Sample Record Read Access
  Fmt Text Show Bits Wire ReadFacts FmtFacts TextFacts Refine Views.
Import ListNotations.
Open Scope N_scope.

(** Printing works, and the text keeps its commas inside brackets. *)
Definition good (d : fmt) (alt : bool) : Prop := exists t, d alt = Ok t /\ closed t /\ t <> [].

(** Equal texts are texts of values related by [R], and conversely. *)
Definition code {A : Type} (d : A -> fmt) (R : A -> A -> Prop) : Prop :=
  (forall a alt, good (d a) alt) /\ (forall a b alt, d a alt = d b alt <-> R a b).

Definition opt_rel {A : Type} (R : A -> A -> Prop) (x y : option A) : Prop :=
  match x, y with None, None => True | Some a, Some b => R a b | _, _ => False end.

Lemma opt_rel_eq : forall A (x y : option A), opt_rel eq x y <-> x = y.
Proof. intros A [x|] [y|]; cbn; split; try tauto; try congruence. Qed.

(** * Structs *)

Definition run (alt : bool) (o : option fmt) : option (out text) := option_map (fun d => d alt) o.

Definition present (l : list (string * option fmt)) : list (string * fmt) :=
  flat_map (fun p => match snd p with Some v => [(fst p, v)] | None => [] end) l.

Lemma present_app : forall l m, present (l ++ m) = present l ++ present m.
Proof. intros. apply flat_map_app. Qed.

Definition all_good (alt : bool) (l : list (string * option fmt)) : Prop :=
  Forall (fun p => forall d, snd p = Some d -> good d alt) l.

Lemma prints_exist : forall alt l, all_good alt l ->
  exists s, prints alt (present l) s /\ all_closed s /\ map fst s = map fst l /\
    map (fun p => run alt (snd p)) l = map (fun p => option_map Ok (snd p)) s.
Proof.
  intros alt l H. induction l as [|[n o] l IH].
  - exists []. repeat constructor.
  - inversion_clear H as [|? ? H1 H2]. destruct (IH H2) as (s & Hp & Hc & Hn & Hr). destruct o as [d|].
    + destruct (H1 d eq_refl) as (t & E & Ht & _). exists ((n, Some t) :: s).
      split; [now apply prints_some|]. split.
      { constructor; [|exact Hc]. intros v Ev. cbn in Ev. now injection Ev as <-. }
      split; [cbn; now rewrite Hn|]. cbn. now rewrite E, Hr.
    + exists ((n, None) :: s). split; [now apply prints_none|].
      split; [constructor; [discriminate|exact Hc]|]. split; [cbn; now rewrite Hn|]. cbn. now rewrite Hr.
Qed.

Lemma map_ok_inj : forall s u : shown, map fst s = map fst u ->
  map (fun p => option_map (@Ok text) (snd p)) s = map (fun p => option_map (@Ok text) (snd p)) u -> s = u.
Proof.
  induction s as [|[n o] s IH]; intros [|[k q] u] En E; try discriminate; [reflexivity|].
  cbn in En, E. injection En as -> En. injection E as E1 E2. f_equal; [|now apply IH].
  destruct o, q; cbn in E1; congruence.
Qed.

Lemma open_iff : forall name alt l m, names_ok (map fst l) = true -> map fst l = map fst m ->
  all_good alt l -> all_good alt m ->
  (d_struct name (present l) false alt = d_struct name (present m) false alt <->
   map (fun p => run alt (snd p)) l = map (fun p => run alt (snd p)) m).
Proof.
  intros name alt l m Hn En Hl Hm.
  destruct (prints_exist alt l Hl) as (s & Hp & Hc & Hs & Hr).
  destruct (prints_exist alt m Hm) as (u & Hp' & Hc' & Hs' & Hr').
  rewrite (open_struct_text _ _ _ _ Hp), (open_struct_text _ _ _ _ Hp'), Hr, Hr'.
  split; intros E.
  - injection E as E. apply open_struct_inj in E; try assumption; [now subst u|now rewrite Hs|congruence].
  - apply map_ok_inj in E; [now subst u|congruence].
Qed.

Lemma open_good : forall name alt l, forallb neutral (txt name) = true -> txt name <> [] ->
  names_ok (map fst l) = true -> all_good alt l -> good (d_struct name (present l) false) alt.
Proof.
  intros name alt l Hname Hne Hn Hl. destruct (prints_exist alt l Hl) as (s & Hp & Hc & Hs & Hr).
  eexists. split; [exact (open_struct_text _ _ _ _ Hp)|]. split.
  - apply open_struct_closed; try assumption. now rewrite Hs.
  - unfold open_struct. intros E. now apply app_eq_nil in E as [E _].
Qed.

Definition good_fields (alt : bool) (l : list (string * fmt)) : Prop :=
  Forall (fun p => good (snd p) alt) l.

Lemma full_exist : forall alt l, good_fields alt l ->
  exists s, prints alt l (somes s) /\ Forall (fun p => closed (snd p)) s /\ map fst s = map fst l /\
    map (fun p => snd p alt) l = map (fun p => Ok (snd p)) s.
Proof.
  intros alt l H. induction l as [|[n d] l IH].
  - exists []. repeat constructor.
  - inversion_clear H as [|? ? H1 H2]. destruct (IH H2) as (s & Hp & Hc & Hn & Hr).
    destruct H1 as (t & E & Ht & _). exists ((n, t) :: s).
    split; [now apply prints_some|]. split; [now constructor|]. split; [cbn; now rewrite Hn|].
    cbn. cbn in E. now rewrite E, Hr.
Qed.

Lemma full_iff : forall name alt l m, names_ok (map fst l) = true -> map fst l = map fst m ->
  l <> [] -> good_fields alt l -> good_fields alt m ->
  (d_struct name l true alt = d_struct name m true alt <->
   map (fun p => snd p alt) l = map (fun p => snd p alt) m).
Proof.
  intros name alt l m Hn En Hne Hl Hm.
  destruct (full_exist alt l Hl) as (s & Hp & Hc & Hs & Hr).
  destruct (full_exist alt m Hm) as (u & Hp' & Hc' & Hs' & Hr').
  assert (s <> []) by (intros ->; destruct l; [congruence|discriminate]).
  assert (u <> []) by (intros ->; destruct m; [destruct l; [congruence|discriminate]|discriminate]).
  rewrite (full_struct_text name alt l s), (full_struct_text name alt m u), Hr, Hr' by assumption.
  split; intros E.
  - injection E as E. apply full_struct_inj in E; try assumption; [now subst u|now rewrite Hs|congruence].
  - assert (Hx : s = u); [|now subst u].
    assert (Hnn : map fst s = map fst u) by congruence. clear - E Hnn. revert u E Hnn.
    induction s as [|[n t] s IH]; intros [|[k w] u] E Hnn; try discriminate; [reflexivity|].
    cbn in E, Hnn. injection E as -> E. injection Hnn as -> Hnn. f_equal. now apply IH.
Qed.

Lemma full_good : forall name alt l, forallb neutral (txt name) = true -> txt name <> [] ->
  names_ok (map fst l) = true -> l <> [] -> good_fields alt l -> good (d_struct name l true) alt.
Proof.
  intros name alt l Hname Hne Hn Hl0 Hl. destruct (full_exist alt l Hl) as (s & Hp & Hc & Hs & Hr).
  assert (s <> []) by (intros ->; destruct l; [congruence|discriminate]).
  eexists. split; [apply full_struct_text; eassumption|]. split.
  - apply full_struct_closed; try assumption. now rewrite Hs.
  - unfold full_struct. intros E. now apply app_eq_nil in E as [E _].
Qed.

(** * Lists and tuples *)

Lemma list_exist : forall alt vs, Forall (fun v => good v alt) vs ->
  exists ts, Forall2 (fun v t => v alt = Ok t) vs ts /\ Forall closed ts /\ Forall (fun t => t <> []) ts.
Proof.
  intros alt vs H. induction H as [|v vs (t & E & Hc & Hn) H (ts & H2 & Hcs & Hns)].
  - exists []. repeat constructor.
  - exists (t :: ts). repeat split; now constructor.
Qed.

Lemma list_good : forall alt vs, Forall (fun v => good v alt) vs -> good (d_list vs) alt.
Proof.
  intros alt vs H. destruct (list_exist alt vs H) as (ts & H2 & Hc & _). eexists.
  split; [exact (d_list_text _ _ _ H2)|]. split; [now apply list_text_closed|].
  destruct ts; [discriminate|]. destruct alt; discriminate.
Qed.

Lemma forall2_map : forall alt vs ts, Forall2 (fun (v : fmt) t => v alt = Ok t) vs ts ->
  map (fun v : fmt => v alt) vs = map Ok ts.
Proof. intros alt vs ts H. induction H as [|v t vs ts E H IH]; [reflexivity|]. cbn. now rewrite E, IH. Qed.

Lemma list_iff : forall alt vs ws, Forall (fun v => good v alt) vs -> Forall (fun v => good v alt) ws ->
  (d_list vs alt = d_list ws alt <-> map (fun v : fmt => v alt) vs = map (fun v : fmt => v alt) ws).
Proof.
  intros alt vs ws Hv Hw.
  destruct (list_exist alt vs Hv) as (ts & H2 & Hc & Hn).
  destruct (list_exist alt ws Hw) as (us & H2' & Hc' & Hn').
  rewrite (d_list_text _ _ _ H2), (d_list_text _ _ _ H2'), (forall2_map _ _ _ H2), (forall2_map _ _ _ H2').
  split; intros E.
  - injection E as E. apply list_text_inj in E; try assumption. now subst us.
  - assert (ts = us); [|now subst us]. clear - E. revert us E.
    induction ts as [|t ts IH]; intros [|u us] E; try discriminate; [reflexivity|].
    cbn in E. injection E as -> E. f_equal. now apply IH.
Qed.

Lemma tuple_good : forall name alt v, forallb neutral (txt name) = true -> txt name <> [] ->
  good v alt -> good (d_tuple1 name v) alt.
Proof.
  intros name alt v Hname Hne (t & E & Hc & _). eexists. split; [apply d_tuple1_text; exact E|].
  split; [now apply tuple_text_closed|]. unfold tuple_text. intros E'. now apply app_eq_nil in E' as [E' _].
Qed.

Lemma tuple_iff : forall name alt v w, good v alt -> good w alt ->
  (d_tuple1 name v alt = d_tuple1 name w alt <-> v alt = w alt).
Proof.
  intros name alt v w (t & Ev & _) (u & Ew & _).
  rewrite (d_tuple1_text _ _ _ _ Ev), (d_tuple1_text _ _ _ _ Ew), Ev, Ew. split; intros E.
  - injection E as E. apply tuple_text_inj in E. now subst.
  - now injection E as ->.
Qed.

(** * Codes *)

Lemma code_text : forall A (f : A -> text) R, (forall a, closed (f a) /\ f a <> []) ->
  (forall a b, f a = f b <-> R a b) -> code (fun a => d_text (f a)) R.
Proof.
  intros A f R Hg HR. split.
  - intros a alt. exists (f a). split; [reflexivity|apply Hg].
  - intros a b alt. unfold d_text. rewrite <- HR. split; congruence.
Qed.

Lemma code_dec : code d_dec eq.
Proof.
  apply code_text; [intros a; split; [apply dec_closed|apply dec_nonempty]|].
  intros a b. split; [apply dec_inj|congruence].
Qed.

Lemma code_hex_addr : code d_hex_addr eq.
Proof.
  apply code_text; [intros a; split; [apply hex_016_closed|discriminate]|].
  intros a b. split; [apply hex_016_inj|congruence].
Qed.

Lemma code_list : forall A (d : A -> fmt) R, code d R ->
  code (fun l => d_list (map d l)) (Forall2 R).
Proof.
  intros A d R [Hg HR].
  assert (Ha : forall l alt, Forall (fun v => good v alt) (map d l)).
  { intros l alt. apply Forall_map. apply Forall_forall. intros a _. apply Hg. }
  split.
  - intros l alt. apply list_good. apply Ha.
  - intros l m alt. rewrite list_iff by apply Ha. rewrite !map_map. revert m.
    induction l as [|a l IH]; intros [|b m]; cbn [map]; split; intros H; try discriminate; try inversion H; subst;
      try constructor.
    + rewrite <- (HR a b alt). congruence.
    + apply IH. congruence.
    + f_equal; [now apply HR|]. now apply IH.
Qed.

Lemma Forall2_eq' : forall A (l m : list A), Forall2 eq l m <-> l = m.
Proof.
  intros A l m. split.
  - induction 1; congruence.
  - intros <-. induction l; constructor; auto.
Qed.

Lemma code_weaken : forall A (d : A -> fmt) R Q, code d R -> (forall a b, R a b <-> Q a b) -> code d Q.
Proof. intros A d R Q [Hg HR] H. split; [exact Hg|]. intros a b alt. now rewrite HR. Qed.

Lemma code_via : forall A B (f : A -> B) d R, code d R -> code (fun a => d (f a)) (fun a b => R (f a) (f b)).
Proof. intros A B f d R [Hg HR]. split; [intros; apply Hg|intros; apply HR]. Qed.

Lemma code_decs : code d_decs (fun a b => cow_list a = cow_list b).
Proof.
  unfold d_decs. apply (code_via _ _ cow_list (fun l => d_list (map d_dec l)) eq).
  eapply code_weaken; [apply code_list, code_dec|]. intros. apply Forall2_eq'.
Qed.

Lemma code_opt : forall A (d : A -> fmt) R alt x y, code d R ->
  (run alt (option_map d x) = run alt (option_map d y) <-> opt_rel R x y).
Proof.
  intros A d R alt x y [Hg HR]. destruct x as [x|], y as [y|]; cbn; split; intros H; try discriminate; try tauto.
  - apply (HR x y alt). congruence.
  - f_equal. now apply HR.
Qed.

Lemma opt_field_present : forall A name (d : A -> fmt) o,
  opt_field name d o = present [(name, option_map d o)].
Proof. intros A name d [o|]; reflexivity. Qed.

Lemma if_field_present : forall A b name (d : A -> fmt) v,
  if_field b name (d v) = present [(name, option_map d (then_some b v))].
Proof. intros A [|] name d v; reflexivity. Qed.

Lemma one_present : forall A name (d : A -> fmt) v, [(name, d v)] = present [(name, option_map d (Some v))].
Proof. reflexivity. Qed.

Lemma good_opt : forall A (d : A -> fmt) R alt o f, code d R -> option_map d o = Some f -> good f alt.
Proof.
  intros A d R alt o f [Hg _] E. destruct o as [a|]; [|discriminate]. injection E as <-. apply Hg.
Qed.

(** * Counter values *)

Ltac goods := repeat apply Forall_cons; try apply Forall_nil;
  try (intros ? ?; cbn [snd] in *; eapply good_opt; [|eassumption]; first [apply code_dec|apply code_hex_addr]).

Definition same_read_value (v w : read_value) : Prop :=
  rv_value v = rv_value w /\ rv_get_enabled v = rv_get_enabled w /\
  rv_get_running v = rv_get_running w /\ rv_get_id v = rv_get_id w /\ rv_get_lost v = rv_get_lost w.

Definition rv_fields (v : read_value) : list (string * option fmt) :=
  [("value", option_map d_dec (Some (rv_value v)));
   ("time_enabled", option_map d_dec (rv_get_enabled v));
   ("time_running", option_map d_dec (rv_get_running v));
   ("id", option_map d_dec (rv_get_id v)); ("lost", option_map d_dec (rv_get_lost v))]%string.

Lemma show_read_value_fields : forall v,
  show_read_value v = d_struct "SingleRead" (present (rv_fields v)) false.
Proof.
  intros v. unfold show_read_value. cbv zeta. f_equal.
  rewrite (one_present _ "value"%string d_dec), !(if_field_present _ _ _ d_dec), <- !present_app. reflexivity.
Qed.

Lemma code_read_value : code show_read_value same_read_value.
Proof.
  assert (Hg : forall v alt, all_good alt (rv_fields v)) by (intros v alt; unfold all_good, rv_fields; goods).
  split.
  - intros v alt. rewrite show_read_value_fields. apply open_good; [reflexivity|discriminate|reflexivity|apply Hg].
  - intros v w alt. rewrite !show_read_value_fields.
    rewrite open_iff; [|reflexivity|reflexivity|apply Hg|apply Hg].
    unfold rv_fields, same_read_value. cbn [map snd].
    rewrite <- !(opt_rel_eq N). rewrite <- !(code_opt _ _ _ alt _ _ code_dec).
    split; intros H.
    + injection H as H1 H2 H3 H4 H5. repeat split; try assumption. now apply dec_inj.
    + destruct H as (-> & -> & -> & -> & ->). reflexivity.
Qed.

Definition ge_fields (e : group_entry) : list (string * option fmt) :=
  [("value", option_map d_dec (Some (ge_value e)));
   ("id", option_map d_dec (ge_get_id e)); ("lost", option_map d_dec (ge_get_lost e))]%string.

Definition same_entry (e f : group_entry) : Prop :=
  ge_value e = ge_value f /\ ge_get_id e = ge_get_id f /\ ge_get_lost e = ge_get_lost f.

Lemma show_entry_fields : forall e, show_entry e = d_struct "GroupEntry" (present (ge_fields e)) false.
Proof.
  intros e. unfold show_entry. cbv zeta. f_equal.
  rewrite (one_present _ "value"%string d_dec), !(if_field_present _ _ _ d_dec), <- !present_app. reflexivity.
Qed.

Lemma code_entry : code show_entry same_entry.
Proof.
  assert (Hg : forall e alt, all_good alt (ge_fields e)) by (intros e alt; unfold all_good, ge_fields; goods).
  split.
  - intros e alt. rewrite show_entry_fields. apply open_good; [reflexivity|discriminate|reflexivity|apply Hg].
  - intros e f alt. rewrite !show_entry_fields.
    rewrite open_iff; [|reflexivity|reflexivity|apply Hg|apply Hg].
    unfold ge_fields, same_entry. cbn [map snd].
    rewrite <- !(opt_rel_eq N). rewrite <- !(code_opt _ _ _ alt _ _ code_dec).
    split; intros H.
    + injection H as H1 H2 H3. repeat split; try assumption. now apply dec_inj.
    + destruct H as (-> & -> & ->). reflexivity.
Qed.

(** * Groups *)

(** What is recorded of a counter. *)
Definition seen (rf : N) (k : counter) : N * option N * option N :=
  (ct_value k, then_some (N.testbit rf 2) (ct_id k), then_some (N.testbit rf 4) (ct_lost k)).

Definition same_group (g h : read_group cow) : Prop :=
  rg_get_enabled g = rg_get_enabled h /\ rg_get_running g = rg_get_running h /\
  forall ks js, counters g ks -> counters h js ->
    map (seen (rg_format g)) ks = map (seen (rg_format h)) js.

Lemma it_collect_q : forall rf ks k, (length ks < k)%nat ->
  it_collect k (mkIter (flat rf ks) (element_len rf) rf) = Ok (map (entry_for rf) ks).
Proof.
  intros rf ks. induction ks as [|c ks IH]; intros k Hk; (destruct k as [|k]; [cbn in Hk; lia|]);
    cbn [it_collect]; rewrite it_next_q; cbn [q_next fst snd option_map obind map]; [reflexivity|].
  rewrite IH by (cbn in Hk; lia). reflexivity.
Qed.

Lemma show_entries_text : forall g ks alt, counters g ks ->
  show_entries g alt = d_list (map show_entry (map (entry_for (rg_format g)) ks)) alt.
Proof.
  intros g ks alt H. unfold show_entries. rewrite (iter_new_holds g ks H). cbn [obind gi_v].
  rewrite it_collect_q; [reflexivity|].
  pose proof (flat_len (rg_format g) ks) as Hl. pose proof (el_pos (rg_format g)) as He.
  unfold len in Hl. nia.
Qed.

Lemma entry_seen : forall rf k rf' k',
  same_entry (entry_for rf k) (entry_for rf' k') <-> seen rf k = seen rf' k'.
Proof.
  intros rf k rf' k'. unfold same_entry, seen, entry_for, ge_get_id, ge_get_lost, then_some, RF_ID, RF_LOST.
  cbn [ge_format ge_value ge_id ge_lost]. rewrite !contains_pow2.
  destruct (N.testbit rf 2), (N.testbit rf 4), (N.testbit rf' 2), (N.testbit rf' 4);
    (split; [intros (E1 & E2 & E3); try discriminate; congruence
            |intros E; try discriminate; repeat split; congruence]).
Qed.

Definition same_entries (g h : read_group cow) : Prop :=
  forall ks js, counters g ks -> counters h js ->
    map (seen (rg_format g)) ks = map (seen (rg_format h)) js.

Lemma code_entries : code show_entries same_entries.
Proof.
  destruct (code_list _ _ _ code_entry) as [Hg HR]. split.
  - intros g alt. destruct (counters_exist g) as (ks & H).
    destruct (Hg (map (entry_for (rg_format g)) ks) alt) as (t & E & Ht). exists t.
    split; [|exact Ht]. now rewrite (show_entries_text g ks alt H).
  - assert (Hiff : forall g h alt ks js, counters g ks -> counters h js ->
              (show_entries g alt = show_entries h alt <->
               map (seen (rg_format g)) ks = map (seen (rg_format h)) js)).
    { intros g h alt ks js H H'. rewrite (show_entries_text g ks alt H), (show_entries_text h js alt H').
      rewrite (HR (map (entry_for (rg_format g)) ks) (map (entry_for (rg_format h)) js) alt).
      generalize (rg_format g), (rg_format h). intros rf rf'. clear. revert js.
      induction ks as [|k ks IH]; intros [|j js]; cbn [map]; split; intros E;
        try discriminate; try (now inversion E); try constructor.
      - inversion_clear E as [|? ? ? ? E1 E2]. f_equal; [now apply entry_seen|now apply IH].
      - apply entry_seen. congruence.
      - apply IH. congruence. }
    intros g h alt. split.
    + intros E ks js H H'. now apply (Hiff g h alt ks js).
    + intros E. destruct (counters_exist g) as (ks & H). destruct (counters_exist h) as (js & H').
      apply (Hiff g h alt ks js H H'). now apply E.
Qed.

Definition rg_fields (g : read_group cow) : list (string * option fmt) :=
  [("time_enabled", option_map d_dec (rg_get_enabled g));
   ("time_running", option_map d_dec (rg_get_running g));
   ("entries", option_map show_entries (Some g))]%string.

Lemma show_read_group_fields : forall g,
  show_read_group g = d_struct "GroupRead" (present (rg_fields g)) false.
Proof.
  intros g. unfold show_read_group. cbv zeta. f_equal.
  rewrite (one_present _ "entries"%string show_entries), !(if_field_present _ _ _ d_dec), <- !present_app. reflexivity.
Qed.

Lemma code_read_group : code show_read_group same_group.
Proof.
  assert (Hg : forall g alt, all_good alt (rg_fields g)).
  { intros g alt. unfold all_good, rg_fields. goods.
    intros d E. cbn [snd] in E. eapply good_opt; [apply code_entries|exact E]. }
  split.
  - intros g alt. rewrite show_read_group_fields. apply open_good; [reflexivity|discriminate|reflexivity|apply Hg].
  - intros g h alt. rewrite !show_read_group_fields.
    rewrite open_iff; [|reflexivity|reflexivity|apply Hg|apply Hg].
    unfold rg_fields, same_group. cbn [map snd].
    rewrite <- !(opt_rel_eq N), <- !(code_opt _ _ _ alt _ _ code_dec).
    pose proof (code_opt _ _ _ alt (Some g) (Some h) code_entries) as He. cbn [opt_rel] in He.
    unfold same_entries in He. rewrite <- He.
    split; intros H.
    + injection H as H1 H2 H3. repeat split; try assumption. cbn. now rewrite H3.
    + destruct H as (-> & -> & ->). reflexivity.
Qed.

(** * SampleId *)

Definition si_fields (s : sample_id) : list (string * option fmt) :=
  [("pid", option_map d_dec (si_pid s)); ("tid", option_map d_dec (si_tid s));
   ("time", option_map d_dec (si_time s)); ("id", option_map d_dec (si_id s));
   ("stream_id", option_map d_dec (si_stream_id s)); ("cpu", option_map d_dec (si_cpu s))]%string.

Lemma show_sample_id_fields : forall s,
  show_sample_id s = d_struct "SampleId" (present (si_fields s)) false.
Proof. intros s. unfold show_sample_id. rewrite !opt_field_present, <- !present_app. reflexivity. Qed.

Lemma code_sample_id : code show_sample_id eq.
Proof.
  assert (Hg : forall s alt, all_good alt (si_fields s)) by (intros s alt; unfold all_good, si_fields; goods).
  split.
  - intros s alt. rewrite show_sample_id_fields. apply open_good; [reflexivity|discriminate|reflexivity|apply Hg].
  - intros s t alt. rewrite !show_sample_id_fields.
    rewrite open_iff; [|reflexivity|reflexivity|apply Hg|apply Hg]. unfold si_fields. cbn [map snd].
    split; intros H; [|now subst t].
    injection H as H1 H2 H3 H4 H5 H6.
    apply (code_opt _ _ _ alt _ _ code_dec), opt_rel_eq in H1, H2, H3, H4, H5, H6.
    destruct s, t. cbn in *. now subst.
Qed.

(** * The parts of a sample and the sample itself *)

(** The Debug impls of other crates print texts of this kind. *)
Definition word_codes (X : ext) : Prop := forall ty, code (d_word X ty) eq.
Definition branch_codes (X : ext) : Prop := code (fun b alt => Ok (x_branch X b alt)) eq.

Lemma code_bool : code d_bool eq.
Proof.
  apply code_text; [intros [|]; split; (reflexivity || discriminate)|].
  intros [|] [|]; split; (reflexivity || discriminate).
Qed.

Definition same_data_src (o : order) (v w : N) : Prop :=
  ds_mem_op o v = ds_mem_op o w /\ ds_mem_lvl o v = ds_mem_lvl o w /\
  ds_mem_snoop o v = ds_mem_snoop o w /\ ds_mem_lock o v = ds_mem_lock o w /\
  ds_mem_dtlb o v = ds_mem_dtlb o w /\ ds_mem_lvl_num o v = ds_mem_lvl_num o w /\
  ds_mem_remote o v = ds_mem_remote o w /\ ds_mem_blk o v = ds_mem_blk o w /\
  ds_mem_hops o v = ds_mem_hops o w.

Definition same_registers (r s : registers cow) : Prop :=
  rg_abi r = rg_abi s /\ rg_mask r = rg_mask s /\ cow_list (rg_regs r) = cow_list (rg_regs s).

Section Ext.
Context (X : ext) (pl : platform) (HW : word_codes X) (HB : branch_codes X).

Lemma code_data_src : code (show_data_src X pl) (same_data_src (pl_host pl)).
Proof.
  set (o := pl_host pl).
  set (F := fun w =>
    [("mem_op", d_word X "MemOp" (ds_mem_op o w)); ("mem_lvl", d_word X "MemLevel" (ds_mem_lvl o w));
     ("mem_snoop", d_word X "MemSnoop" (ds_mem_snoop o w));
     ("mem_lock", d_word X "MemLock" (ds_mem_lock o w));
     ("mem_dtlb", d_word X "MemDtlb" (ds_mem_dtlb o w));
     ("mem_lvl_num", d_word X "MemLevelNum" (ds_mem_lvl_num o w));
     ("mem_remote", d_bool (ds_mem_remote o w));
     ("mem_blk", d_word X "MemBlk" (ds_mem_blk o w)); ("mem_hops", d_dec (ds_mem_hops o w))]%string).
  change (code (fun w => d_struct "DataSource" (F w) true) (same_data_src o)).
  assert (Hg : forall w alt, good_fields alt (F w)).
  { intros w alt. unfold good_fields, F. repeat apply Forall_cons; try apply Forall_nil; cbn [snd];
      first [apply HW|apply code_bool|apply code_dec]. }
  split.
  - intros w alt. apply full_good; [reflexivity|discriminate|reflexivity|discriminate|apply Hg].
  - intros v w alt. rewrite full_iff; [|reflexivity|reflexivity|discriminate|apply Hg|apply Hg].
    unfold F, same_data_src. cbn [map snd].
    rewrite <- (proj2 (HW "MemOp"%string) _ _ alt), <- (proj2 (HW "MemLevel"%string) _ _ alt),
      <- (proj2 (HW "MemSnoop"%string) _ _ alt), <- (proj2 (HW "MemLock"%string) _ _ alt),
      <- (proj2 (HW "MemDtlb"%string) _ _ alt), <- (proj2 (HW "MemLevelNum"%string) _ _ alt),
      <- (proj2 code_bool _ _ alt), <- (proj2 (HW "MemBlk"%string) _ _ alt), <- (proj2 code_dec _ _ alt).
    split; intros H.
    + injection H as H1 H2 H3 H4 H5 H6 H7 H8 H9. unfold d_word, d_bool, d_dec, d_text.
      repeat split; congruence.
    + destruct H as (-> & -> & -> & -> & -> & -> & -> & -> & ->). reflexivity.
Qed.

Lemma code_registers : code (show_registers X) same_registers.
Proof.
  assert (Hg : forall r alt, good_fields alt
    [("abi"%string, d_word X "SampleRegsAbi" (rg_abi r)); ("mask"%string, d_dec (rg_mask r));
     ("regs"%string, d_decs (rg_regs r))]).
  { intros r alt. repeat apply Forall_cons; try apply Forall_nil; cbn [snd];
      first [apply HW|apply code_dec|apply code_decs]. }
  split.
  - intros r alt. apply full_good; [reflexivity|discriminate|reflexivity|discriminate|apply Hg].
  - intros r s alt. unfold show_registers. rewrite full_iff; [|reflexivity|reflexivity|discriminate|apply Hg|apply Hg].
    unfold same_registers. cbn [map snd].
    rewrite <- (proj2 (HW "SampleRegsAbi"%string) _ _ alt), <- (proj2 code_dec _ _ alt), <- (proj2 code_decs _ _ alt).
    split; intros H.
    + injection H as H1 H2 H3. unfold d_word, d_dec, d_text. repeat split; congruence.
    + destruct H as (-> & -> & ->). reflexivity.
Qed.

Lemma code_branches : code (d_branches X) (fun a b => cow_list a = cow_list b).
Proof.
  unfold d_branches.
  apply (code_via _ _ cow_list
    (fun l => d_list (map (fun b => d_tuple1 "BranchEntry" (fun alt => Ok (x_branch X b alt))) l)) eq).
  eapply code_weaken; [apply code_list|intros; apply Forall2_eq'].
  destruct HB as [Hg HR]. split.
  - intros b alt. apply tuple_good; [reflexivity|discriminate|]. apply (Hg b alt).
  - intros b c alt. rewrite tuple_iff; [apply HR|apply (Hg b alt)|apply (Hg c alt)].
Qed.

Definition sample_fields_shown (s : sample cow) : list (string * option fmt) :=
  [("ip", option_map d_dec (s_ip s)); ("pid", option_map d_dec (s_pid s));
   ("tid", option_map d_dec (s_tid s)); ("time", option_map d_dec (s_time s));
   ("addr", option_map d_hex_addr (s_addr s)); ("id", option_map d_dec (s_id s));
   ("stream_id", option_map d_dec (s_stream_id s)); ("cpu", option_map d_dec (s_cpu s));
   ("period", option_map d_dec (s_period s)); ("values", option_map show_read_group (s_values s));
   ("callchain", option_map d_decs (s_callchain s)); ("raw", option_map d_decs (s_raw s));
   ("lbr_hw_index", option_map d_dec (s_lbr_hw_index s)); ("lbr", option_map (d_branches X) (s_lbr s));
   ("regs_user", option_map (show_registers X) (s_regs_user s));
   ("stack_user", option_map d_decs (s_stack_user s)); ("weight", option_map d_dec (s_weight s));
   ("data_src", option_map (show_data_src X pl) (s_data_src s));
   ("transaction", option_map (d_word X "Txn") (s_transaction s));
   ("regs_intr", option_map (show_registers X) (s_regs_intr s));
   ("phys_addr", option_map d_hex_addr (s_phys_addr s)); ("aux", option_map d_decs (s_aux s));
   ("cgroup", option_map d_dec (s_cgroup s));
   ("data_page_size", option_map d_dec (s_data_page_size s));
   ("code_page_size", option_map d_dec (s_code_page_size s))]%string.

Lemma show_sample_fields : forall s,
  show_sample X pl s = d_struct "Sample" (present (sample_fields_shown s)) false.
Proof.
  intros s. unfold show_sample, sample_debug_fields. rewrite !opt_field_present, <- !present_app. reflexivity.
Qed.

(** The two samples cannot be told apart by what they record. *)
Definition same_list (a b : cow N) : Prop := cow_list a = cow_list b.
Definition same_sample (s t : sample cow) : Prop :=
  s_ip s = s_ip t /\ s_pid s = s_pid t /\ s_tid s = s_tid t /\ s_time s = s_time t /\
  s_addr s = s_addr t /\ s_id s = s_id t /\ s_stream_id s = s_stream_id t /\ s_cpu s = s_cpu t /\
  s_period s = s_period t /\ opt_rel same_group (s_values s) (s_values t) /\
  opt_rel same_list (s_callchain s) (s_callchain t) /\ opt_rel same_list (s_raw s) (s_raw t) /\
  s_lbr_hw_index s = s_lbr_hw_index t /\
  opt_rel (fun a b => cow_list a = cow_list b) (s_lbr s) (s_lbr t) /\
  opt_rel same_registers (s_regs_user s) (s_regs_user t) /\
  opt_rel same_list (s_stack_user s) (s_stack_user t) /\ s_weight s = s_weight t /\
  opt_rel (same_data_src (pl_host pl)) (s_data_src s) (s_data_src t) /\
  s_transaction s = s_transaction t /\ opt_rel same_registers (s_regs_intr s) (s_regs_intr t) /\
  s_phys_addr s = s_phys_addr t /\ opt_rel same_list (s_aux s) (s_aux t) /\
  s_cgroup s = s_cgroup t /\ s_data_page_size s = s_data_page_size t /\
  s_code_page_size s = s_code_page_size t.

Lemma sample_good : forall s alt, all_good alt (sample_fields_shown s).
Proof.
  intros s alt. unfold all_good, sample_fields_shown. repeat apply Forall_cons; try apply Forall_nil;
    (intros ? E; cbn [snd] in E; eapply good_opt; [|exact E]);
    first [apply code_dec|apply code_hex_addr|apply code_read_group|apply code_decs|apply code_branches
          |apply code_registers|apply code_data_src|apply HW].
Qed.

Lemma code_sample : code (show_sample X pl) same_sample.
Proof.
  split.
  - intros s alt. rewrite show_sample_fields.
    apply open_good; [reflexivity|discriminate|reflexivity|apply sample_good].
  - intros s t alt. rewrite !show_sample_fields.
    rewrite open_iff; [|reflexivity|reflexivity|apply sample_good|apply sample_good].
    unfold sample_fields_shown, same_sample. cbn [map snd].
    rewrite <- !(opt_rel_eq N).
    rewrite <- (code_opt _ _ _ alt (s_addr s) (s_addr t) code_hex_addr),
      <- (code_opt _ _ _ alt (s_phys_addr s) (s_phys_addr t) code_hex_addr),
      <- (code_opt _ _ _ alt (s_transaction s) (s_transaction t) (HW "Txn"%string)).
    rewrite <- !(code_opt _ _ _ alt _ _ code_dec), <- !(code_opt _ _ _ alt _ _ code_decs),
      <- (code_opt _ _ _ alt _ _ code_read_group), <- (code_opt _ _ _ alt _ _ code_branches),
      <- !(code_opt _ _ _ alt _ _ code_registers), <- (code_opt _ _ _ alt _ _ code_data_src).
    split; intros H.
    + injection H. intros. repeat split; assumption.
    + decompose [and] H. congruence.
Qed.
End Ext.

(** * Nothing panics *)

Definition shows (d : fmt) (alt : bool) : Prop := exists t, d alt = Ok t.

Lemma good_shows : forall d alt, good d alt -> shows d alt.
Proof. intros d alt (t & E & _). now exists t. Qed.

Lemma struct_shows : forall name fs fin alt, Forall (fun p => shows (snd p) alt) fs ->
  shows (d_struct name fs fin) alt.
Proof.
  intros name fs fin alt H. unfold shows, d_struct.
  assert (H1 : alt = false -> forall sep, exists t, fields_plain sep fs = Ok t).
  { intros ->. induction H as [|[n v] fs (t & E) H IH]; intros sep; [now exists []|].
    cbn [fields_plain snd] in *. rewrite E. cbn [obind]. destruct (IH ", "%string) as (r & ->). cbn [obind].
    eexists. reflexivity. }
  assert (H2 : alt = true -> exists t, fields_pretty fs = Ok t).
  { intros ->. clear H1. induction H as [|[n v] fs (t & E) H IH]; [now exists []|].
    cbn [fields_pretty snd] in *. rewrite E. cbn [obind]. destruct IH as (r & ->). cbn [obind].
    eexists. reflexivity. }
  destruct fs as [|f fs]; [eexists; reflexivity|]. destruct alt.
  - destruct (H2 eq_refl) as (t & ->). eexists. reflexivity.
  - destruct (H1 eq_refl " { "%string) as (t & ->). eexists. reflexivity.
Qed.

Lemma list_shows : forall vs alt, Forall (fun v => shows v alt) vs -> shows (d_list vs) alt.
Proof.
  intros vs alt H.
  assert (E : exists ts, Forall2 (fun v t => v alt = Ok t) vs ts).
  { induction H as [|v vs (t & E) H (ts & IH)]; [now exists []|]. exists (t :: ts). now constructor. }
  destruct E as (ts & E). eexists. exact (d_list_text _ _ _ E).
Qed.

Lemma tuple_shows : forall name v alt, shows v alt -> shows (d_tuple1 name v) alt.
Proof. intros name v alt (t & E). eexists. exact (d_tuple1_text _ _ _ _ E). Qed.

Lemma opt_shows : forall A name (d : A -> fmt) o alt, (forall a, shows (d a) alt) ->
  Forall (fun p => shows (snd p) alt) (opt_field name d o).
Proof. intros A name d [a|] alt H; repeat constructor. apply H. Qed.

Lemma text_shows : forall t alt, shows (d_text t) alt.
Proof. intros t alt. now exists t. Qed.

(** The build id fits in its array. *)
Definition detail_ok (d : mmap_detail) : Prop :=
  match d with MdBuildId b n => n <= len b /\ bytes b | _ => True end.

Definition record_ok (r : record cow) : Prop :=
  match r with RBody (BMmap2 x) => detail_ok (m2_detail x) | _ => True end.

Section Total.
Context (X : ext) (pl : platform).

Lemma byte_str_shows : forall l alt, shows (d_byte_str X l) alt.
Proof.
  intros l alt. unfold shows, d_byte_str, byte_str.
  destruct (byte_str_loop_spec (x_esc X) (length l) l (le_n _)) as (ps & _ & _ & E). rewrite E.
  eexists. reflexivity.
Qed.

Lemma hex_nibble_ok : forall n, n < 16 -> exists c, hex_nibble n = Ok c.
Proof.
  intros n H. unfold hex_nibble. destruct (N.leb_spec n 9); [eexists; reflexivity|].
  destruct (N.leb_spec n 15); [eexists; reflexivity|lia].
Qed.

Lemma hex_str_shows : forall l alt, bytes l -> shows (d_hex_str l) alt.
Proof.
  intros l alt H. unfold shows, d_hex_str. induction H as [|b t Hb H IH]; [now exists []|].
  cbn [hex_str hex_nibbles].
  assert (H1 : N.land b 15 < 16).
  { change 15 with (N.ones 4). rewrite N.land_ones. apply N.mod_upper_bound. discriminate. }
  assert (H2 : N.shiftr b 4 < 16).
  { rewrite N.shiftr_div_pow2. apply N.div_lt_upper_bound; [discriminate|]. exact Hb. }
  destruct (hex_nibble_ok _ H1) as (x & ->), (hex_nibble_ok _ H2) as (y & ->).
  destruct IH as (r & ->). eexists. reflexivity.
Qed.

Lemma word_shows : forall ty n alt, shows (d_word X ty n) alt.
Proof. intros. eexists. reflexivity. Qed.

Lemma decs_shows : forall c alt, shows (d_decs c) alt.
Proof. intros c alt. apply good_shows, code_decs. Qed.

Ltac fields := apply struct_shows; repeat (apply Forall_cons || apply Forall_app; [|split]); cbn [snd].

Lemma mmap2_shows : forall r alt, detail_ok (m2_detail r) -> shows (show_mmap2 X r) alt.
Proof.
  intros r alt H. unfold shows, show_mmap2.
  assert (G : exists fs, detail_fields r = Ok fs /\ Forall (fun p => shows (snd p) alt) fs).
  { unfold detail_fields, m2_build_id. destruct (m2_detail r) as [a b c d|b n].
    - eexists. split; [reflexivity|]. repeat constructor; eexists; reflexivity.
    - destruct H as [H Hb]. rewrite (proj2 (N.ltb_ge _ _)) by exact H. cbn [obind].
      eexists. split; [reflexivity|]. repeat constructor. apply hex_str_shows. now apply bytes_take. }
  destruct G as (fs & -> & Hf). cbn [obind]. apply struct_shows.
  rewrite !Forall_app. split; [repeat constructor; eexists; reflexivity|].
  split; [exact Hf|]. repeat constructor; try (eexists; reflexivity). apply byte_str_shows.
Qed.

Lemma sample_shows : forall s alt, shows (show_sample X pl s) alt.
Proof.
  intros s alt. unfold show_sample. apply struct_shows. unfold sample_debug_fields.
  rewrite !Forall_app.
  repeat match goal with |- _ /\ _ => split end; apply opt_shows; intros a;
    first [apply good_shows; solve [apply code_dec | apply code_hex_addr | apply code_read_group
                                   | apply code_decs]
          | apply word_shows | idtac].
  - apply list_shows. rewrite Forall_map. apply Forall_forall. intros b _. apply tuple_shows.
    eexists. reflexivity.
  - unfold show_registers. apply struct_shows. repeat constructor; try (eexists; reflexivity). apply decs_shows.
  - unfold show_data_src. apply struct_shows. repeat constructor; eexists; reflexivity.
  - unfold show_registers. apply struct_shows. repeat constructor; try (eexists; reflexivity). apply decs_shows.
Qed.

Lemma record_shows : forall r alt, record_ok r -> shows (show_record X pl r) alt.
Proof.
  intros [b|ty d] alt H; [|apply struct_shows; repeat constructor; [eexists; reflexivity|apply decs_shows]].
  destruct b; cbn [show_record];
    try solve [apply tuple_shows, sample_shows | apply tuple_shows, mmap2_shows, H];
    try (apply tuple_shows; apply struct_shows; repeat constructor; try (eexists; reflexivity);
         try apply byte_str_shows; try apply decs_shows; cbn [snd]).
  - apply good_shows, code_read_value.
  - apply text_shows.
  - apply tuple_shows. destruct r; apply struct_shows; repeat constructor; eexists; reflexivity.
  - apply list_shows. rewrite Forall_map. apply Forall_forall. intros n _.
    apply struct_shows; repeat constructor; eexists; reflexivity.
  - apply list_shows. rewrite Forall_map. apply Forall_forall. intros n _. eexists. reflexivity.
  - apply struct_shows; repeat constructor. apply decs_shows.
Qed.
End Total.

(** * Borrowed or owned *)

Definition own_group (g : read_group list) : read_group cow :=
  mkReadGroup (rg_format g) (rg_enabled g) (rg_running g) (Owned (rg_data g)).
Definition own_regs (r : registers list) : registers cow :=
  mkRegs (rg_abi r) (rg_mask r) (Owned (rg_regs r)).
Definition own_sample (s : sample list) : sample cow :=
  mkSample (s_ip s) (s_pid s) (s_tid s) (s_time s) (s_addr s) (s_id s) (s_stream_id s)
    (s_cpu s) (s_period s) (option_map own_group (s_values s))
    (option_map Owned (s_callchain s)) (option_map Owned (s_raw s)) (s_lbr_hw_index s)
    (option_map Owned (s_lbr s)) (option_map own_regs (s_regs_user s))
    (option_map Owned (s_stack_user s)) (s_weight s) (s_data_src s) (s_transaction s)
    (option_map own_regs (s_regs_intr s)) (s_phys_addr s) (option_map Owned (s_aux s))
    (s_cgroup s) (s_data_page_size s) (s_code_page_size s).

Lemma opt_field_map : forall A B name (d : A -> fmt) (f : B -> A) o,
  opt_field name d (option_map f o) = opt_field name (fun b => d (f b)) o.
Proof. intros A B name d f [b|]; reflexivity. Qed.

Lemma sample_viewed : forall X pl s,
  show_sample X pl s = show_sample X pl (own_sample (view_sample s)).
Proof.
  intros X pl s. unfold show_sample, sample_debug_fields, own_sample, view_sample.
  cbn [s_ip s_pid s_tid s_time s_addr s_id s_stream_id s_cpu s_period s_values s_callchain s_raw
       s_lbr_hw_index s_lbr s_regs_user s_stack_user s_weight s_data_src s_transaction s_regs_intr
       s_phys_addr s_aux s_cgroup s_data_page_size s_code_page_size].
  rewrite !opt_field_map. reflexivity.
Qed.

Lemma record_viewed : forall X pl r r', view_record r = view_record r' ->
  show_record X pl r = show_record X pl r'.
Proof.
  intros X pl [b|t d] [b'|t' d'] H; try discriminate.
  - injection H as H.
    destruct b, b'; try discriminate; cbn [view_body] in H; cbn [show_record];
      try (injection H as ->; reflexivity); try reflexivity.
    all: try (apply (f_equal (fun b => match b with BSample x => own_sample x
                                       | _ => own_sample (view_sample r) end)) in H;
              rewrite (sample_viewed X pl r), (sample_viewed X pl r0), H; reflexivity).
    all: try (injection H; clear H; intros;
              cbv [show_mmap show_mmap2 show_comm show_namespaces show_ksymbol show_cgroup
                   show_text_poke d_decs detail_fields m2_build_id];
              repeat match goal with E : _ = _ |- _ => rewrite E; clear E end; reflexivity).
  - injection H as -> H. cbn [show_record]. unfold d_decs. now rewrite H.
Qed.

(** * Configuration and metadata *)

Definition same_config (c d : config) : Prop :=
  read_format c = read_format d /\ sample_type c = sample_type d /\
  sample_id_all c = sample_id_all d /\ branch_hw_index c = branch_hw_index d /\
  misc c = misc d /\ c_regs_user c = c_regs_user d /\ c_regs_intr c = c_regs_intr d.

Definition d_0x (n : N) : fmt := d_text (txt "0x" ++ hex n).

Lemma code_0x : code d_0x eq.
Proof.
  apply (code_text _ (fun n => txt "0x" ++ hex n)).
  - intros a. split; [apply closed_app; [reflexivity|apply hex_closed]|discriminate].
  - intros a b. split; [intros E; apply hex_inj; now apply app_inv_head in E|congruence].
Qed.

Lemma code_config : forall X, word_codes X -> code (show_config X) same_config.
Proof.
  intros X HW.
  set (F := fun c =>
    [("read_format", d_word X "ReadFormat" (read_format c));
     ("sample_type", d_word X "SampleFlags" (sample_type c));
     ("sample_id_all", d_bool (sample_id_all c)); ("branch_hw_index", d_bool (branch_hw_index c));
     ("misc", d_0x (misc c)); ("regs_user", d_0x (c_regs_user c));
     ("regs_intr", d_0x (c_regs_intr c))]%string).
  change (code (fun c => d_struct "ParseConfig" (F c) true) same_config).
  assert (Hg : forall c alt, good_fields alt (F c)).
  { intros c alt. unfold good_fields, F. repeat apply Forall_cons; try apply Forall_nil; cbn [snd];
      first [apply HW|apply code_bool|apply code_0x]. }
  split.
  - intros c alt. apply full_good; [reflexivity|discriminate|reflexivity|discriminate|apply Hg].
  - intros c d alt. rewrite full_iff; [|reflexivity|reflexivity|discriminate|apply Hg|apply Hg].
    unfold F, same_config. cbn [map snd].
    rewrite <- (proj2 (HW "ReadFormat"%string) _ _ alt), <- (proj2 (HW "SampleFlags"%string) _ _ alt),
      <- !(proj2 code_bool _ _ alt), <- !(proj2 code_0x _ _ alt).
    split; intros H.
    + injection H as H1 H2 H3 H4 H5 H6 H7. unfold d_word, d_bool, d_0x, d_text.
      repeat split; congruence.
    + destruct H as (-> & -> & -> & -> & -> & -> & ->). reflexivity.
Qed.

Lemma code_metadata : code show_metadata eq.
Proof.
  assert (Hg : forall m alt, good_fields alt
    [("ty"%string, d_dec (md_ty m)); ("misc"%string, d_dec (md_misc m));
     ("sample_id"%string, show_sample_id (md_sample_id m))]).
  { intros m alt. repeat apply Forall_cons; try apply Forall_nil; cbn [snd];
      first [apply code_dec|apply code_sample_id]. }
  split.
  - intros m alt. apply full_good; [reflexivity|discriminate|reflexivity|discriminate|apply Hg].
  - intros m n alt. unfold show_metadata.
    rewrite full_iff; [|reflexivity|reflexivity|discriminate|apply Hg|apply Hg]. cbn [map snd].
    split; intros H; [|now subst].
    injection H as H1 H2 H3. apply dec_inj in H1, H2. apply (proj2 code_sample_id) in H3.
    destruct m, n. cbn in *. now subst.
Qed.

(** * Exact texts *)

(** Lines without line breaks. *)
Definition flatline (t : text) : Prop := Forall (fun c => c <> 10) t.

Lemma pad_flat : forall t r, flatline t -> pad false (t ++ r) = t ++ pad false r.
Proof.
  intros t r H. induction H as [|c t Hc H IH]; [reflexivity|]. cbn [app pad].
  apply N.eqb_neq in Hc. now rewrite Hc, IH.
Qed.

Lemma dec_flat : forall n, flatline (dec n).
Proof. intros n. eapply Forall_impl; [|apply dec_chars]. cbn. intros. lia. Qed.

(** [name: value] followed by a separator, if there is a value. *)
Definition item (before after name : string) (o : option N) : text :=
  match o with Some v => txt before ++ txt name ++ txt ": " ++ dec v ++ txt after | None => [] end.

Definition line (name : string) (o : option N) : text := item "    " "," name o ++
  match o with Some _ => nl | None => [] end.

Definition numbers (l : list (string * option N)) : shown :=
  map (fun p => (fst p, option_map dec (snd p))) l.

Lemma pad_numbers : forall l r, Forall (fun p => flatline (txt (fst p)) /\ txt (fst p) <> []) l ->
  pad true (entries (txt "," ++ nl) (named (numbers l)) ++ r) =
  flat_map (fun p => line (fst p) (snd p)) l ++ pad true r.
Proof.
  intros l r H. induction H as [|[n o] l [Hn Hne] H IH]; [reflexivity|].
  destruct o as [v|]; [|exact IH].
  change (entries (txt "," ++ nl) (named (numbers ((n, Some v) :: l))))
    with ((txt n ++ [58; 32] ++ dec v ++ txt "," ++ nl) ++ entries (txt "," ++ nl) (named (numbers l))).
  cbn [flat_map fst snd]. unfold line at 1, item.
  replace (((txt n ++ [58; 32] ++ dec v ++ txt "," ++ nl) ++ entries (txt "," ++ nl) (named (numbers l))) ++ r)
    with (((txt n ++ [58; 32] ++ dec v ++ txt ",") ++ nl) ++ (entries (txt "," ++ nl) (named (numbers l)) ++ r))
    by (rewrite <- !app_assoc; reflexivity).
  rewrite pad_line, IH, app_assoc. f_equal. f_equal. rewrite <- !app_assoc.
  cbn [fst] in Hn, Hne. destruct (txt n) as [|c t]; [congruence|]. inversion_clear Hn as [|? ? Hc Ht].
  cbn [app pad]. apply N.eqb_neq in Hc. rewrite Hc. change (txt "    ") with [32; 32; 32; 32].
  cbn [app]. repeat f_equal. rewrite pad_flat by exact Ht. f_equal.
  cbn [app pad N.eqb Pos.eqb]. repeat f_equal.
  rewrite pad_flat by apply dec_flat. reflexivity.
Qed.

Lemma numbers_prints : forall alt l,
  prints alt (present (map (fun p => (fst p, option_map d_dec (snd p))) l)) (numbers l).
Proof.
  intros alt l. induction l as [|[n [v|]] l IH]; cbn; constructor; try exact IH. reflexivity.
Qed.

Lemma numbers_plain : forall name l,
  d_struct name (present (map (fun p => (fst p, option_map d_dec (snd p))) l)) false false =
  Ok (txt name ++ txt " { " ++ flat_map (fun p => item "" ", " (fst p) (snd p)) l ++ txt ".. }").
Proof.
  intros name l. rewrite (open_struct_text _ _ _ _ (numbers_prints false l)). unfold open_struct.
  cbn [andb]. do 4 f_equal. unfold entries, named, numbers.
  induction l as [|[n [v|]] l IH]; cbn [map flat_map fst snd option_map]; try exact IH; [reflexivity|].
  rewrite IH. unfold item. cbn [txt]. reflexivity.
Qed.

Lemma numbers_pretty : forall name l, Forall (fun p => flatline (txt (fst p)) /\ txt (fst p) <> []) l ->
  d_struct name (present (map (fun p => (fst p, option_map d_dec (snd p))) l)) false true =
  Ok (if existsb (fun p => match snd p with Some _ => true | None => false end) l
      then txt name ++ txt " {" ++ nl ++ flat_map (fun p => line (fst p) (snd p)) l
           ++ txt "    .." ++ nl ++ txt "}"
      else txt name ++ txt " { .. }").
Proof.
  intros name l H. rewrite (open_struct_text _ _ _ _ (numbers_prints true l)). unfold open_struct.
  cbn [andb].
  replace (some_shown (numbers l))
    with (existsb (fun p => match snd p with Some _ => true | None => false end) l)
    by (clear; unfold some_shown, numbers; induction l as [|[n [v|]] l IH]; cbn in *; auto).
  destruct (existsb _ l) eqn:E.
  - rewrite pad_numbers by exact H. rewrite <- !app_assoc. reflexivity.
  - assert (Z : entries (txt ", ") (named (numbers l)) = []).
    { clear H. unfold entries, named, numbers. induction l as [|[n [v|]] l IH]; cbn in *; try discriminate; auto. }
    now rewrite Z.
Qed.

(** * Error messages *)

Lemma dec_head : forall n, 48 <= hd 0 (dec n) < 58.
Proof.
  intros n. pose proof (dec_nonempty n) as H. pose proof (dec_chars n) as F.
  destruct (dec n) as [|c t]; [congruence|]. now inversion F.
Qed.

Lemma head_app : forall (a b : text), a <> [] -> hd 0 (a ++ b) = hd 0 a.
Proof. intros [|c a] b H; [congruence|reflexivity]. Qed.

Lemma message_nonempty : forall m, message_text m <> [].
Proof.
  destruct m; try discriminate. cbn [message_text]. intros H. apply app_eq_nil in H.
  now apply (dec_nonempty n).
Qed.

Lemma message_letter : forall m, (exists n, m = MsgAttrSize n) \/ 97 <= hd 0 (message_text m).
Proof. destruct m; ((left; eexists; reflexivity) || (right; vm_compute; discriminate)). Qed.

Lemma message_digit : forall n, hd 0 (message_text (MsgAttrSize n)) < 58.
Proof.
  intros n. cbn [message_text]. rewrite head_app by apply dec_nonempty. apply dec_head.
Qed.

Lemma message_inj : forall m m', message_text m = message_text m' -> m = m'.
Proof.
  intros m m' E.
  destruct (message_letter m) as [[n ->]|H], (message_letter m') as [[n' ->]|H'].
  - cbn [message_text] in E. apply app_inv_tail, dec_inj in E. now subst.
  - rewrite <- E in H'. pose proof (message_digit n). lia.
  - rewrite E in H. pose proof (message_digit n'). lia.
  - destruct m as [| | | | | | | |n|n|], m' as [| | | | | | | |n'|n'|];
      try reflexivity;
      try (apply (f_equal (hd 0)) in E; vm_compute in E; discriminate E);
      try (exfalso; pose proof (message_digit n); lia);
      try (exfalso; pose proof (message_digit n'); lia);
      try (vm_compute in E; discriminate E).
    cbn [message_text] in E. apply app_inv_head, app_inv_tail, dec_inj in E. now subst.
Qed.
