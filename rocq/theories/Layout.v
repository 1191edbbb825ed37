(** How nested values are laid out in text: on one line, and one part per line.
    A specification that shares nothing with [pad], [d_struct] and [d_list] of
    Text.v except the names of characters. *)
From Coq Require Import String NArith List Bool Lia.
From Verif Require Import Base BaseFacts Types Read Fmt Text TextFacts.
Import ListNotations.
Open Scope N_scope.

(** A value as its parts.  A [Leaf] has a text for one line and a text that may
    take several lines; [more] marks a struct that ends in two dots. *)
Inductive tree : Type :=
| Leaf (one many : text)
| Struct (name : string) (fields : list (string * tree)) (more : bool)
| Tuple (name : string) (field : tree)
| Items (items : list tree).

Definition atom (t : text) : tree := Leaf t t.

(** ** On one line *)
Fixpoint separated (sep : text) (l : list text) : text :=
  match l with
  | [] => []
  | [t] => t
  | t :: r => t ++ sep ++ separated sep r
  end.

Fixpoint one_line (t : tree) : text :=
  match t with
  | Leaf one _ => one
  | Struct name fs more =>
      let parts := map (fun p => txt (fst p) ++ txt ": " ++ one_line (snd p)) fs
                   ++ (if more then [txt ".."] else []) in
      match parts with
      | [] => txt name
      | _ => txt name ++ txt " { " ++ separated (txt ", ") parts ++ txt " }"
      end
  | Tuple name t => txt name ++ txt "(" ++ one_line t ++ txt ")"
  | Items ts => txt "[" ++ separated (txt ", ") (map one_line ts) ++ txt "]"
  end.

(** ** Over several lines *)
Fixpoint split_lines (s : text) : list text :=
  match s with
  | [] => [[]]
  | c :: t =>
      if c =? 10 then [] :: split_lines t
      else match split_lines t with
           | [] => [[c]]
           | l :: r => (c :: l) :: r
           end
  end.

Definition indent (ls : list text) : list text := map (fun l => txt "    " ++ l) ls.
(** [label] before the first line, a comma after the last. *)
Fixpoint comma (ls : list text) : list text :=
  match ls with
  | [] => []
  | [l] => [l ++ txt ","]
  | l :: r => l :: comma r
  end.
Definition labelled (label : text) (ls : list text) : list text :=
  match ls with [] => [label] | l :: r => (label ++ l) :: r end.

Fixpoint many_lines (t : tree) : list text :=
  match t with
  | Leaf _ many => split_lines many
  | Struct name fs more =>
      match fs with
      | [] => [txt name ++ if more then txt " { .. }" else []]
      | _ =>
          [txt name ++ txt " {"]
          ++ flat_map (fun p => indent (labelled (txt (fst p) ++ txt ": ") (comma (many_lines (snd p))))) fs
          ++ (if more then [txt "    .."] else [])
          ++ [txt "}"]
      end
  | Tuple name t => [txt name ++ txt "("] ++ indent (comma (many_lines t)) ++ [txt ")"]
  | Items ts =>
      match ts with
      | [] => [txt "[]"]
      | _ => [txt "["] ++ flat_map (fun t => indent (comma (many_lines t))) ts ++ [txt "]"]
      end
  end.

Definition several_lines (t : tree) : text := separated nl (many_lines t).

(** [d] prints [t], in both forms. *)
Definition printed_as (d : fmt) (t : tree) : Prop :=
  d false = Ok (one_line t) /\ d true = Ok (several_lines t).

(** ** Facts *)
Definition plain_line (l : text) : Prop := ~ In 10 l.
Definition plain_name (s : string) : bool := forallb (fun c => negb (c =? 10)) (txt s).

Definition shown (d : fmt) (t : tree) : Prop :=
  printed_as d t /\ many_lines t <> [] /\ Forall plain_line (many_lines t).

Lemma shown_printed : forall d t, shown d t -> printed_as d t.
Proof. intros d t H. apply H. Qed.

Lemma name_plain : forall s, plain_name s = true -> plain_line (txt s).
Proof.
  intros s H Hi. unfold plain_name in H. rewrite forallb_forall in H. apply H in Hi.
  now rewrite N.eqb_refl in Hi.
Qed.

Lemma plain_app : forall a b, plain_line a -> plain_line b -> plain_line (a ++ b).
Proof. intros a b Ha Hb Hi. apply in_app_or in Hi as [Hi|Hi]; [exact (Ha Hi)|exact (Hb Hi)]. Qed.

Ltac plain_lit := let H := fresh in intros H; cbn in H; repeat destruct H as [H|H]; try discriminate; try contradiction.

Lemma separated_cons : forall sep t r, r <> [] -> separated sep (t :: r) = t ++ sep ++ separated sep r.
Proof. intros sep t [|u r] H; [congruence|reflexivity]. Qed.

Lemma separated_app : forall sep l r, l <> [] -> r <> [] ->
  separated sep (l ++ r) = separated sep l ++ sep ++ separated sep r.
Proof.
  intros sep l r Hl Hr. induction l as [|t l IH]; [congruence|]. cbn [app].
  destruct l as [|u l]; [cbn [app]; now rewrite separated_cons|].
  rewrite !separated_cons by (try discriminate; now destruct r).
  rewrite IH by discriminate. now rewrite <- !app_assoc.
Qed.

Lemma split_ne : forall s, split_lines s <> [].
Proof. intros [|c s]; cbn; [discriminate|]. destruct (c =? 10); [discriminate|]. now destruct (split_lines s). Qed.

Lemma split_plain : forall s, Forall plain_line (split_lines s).
Proof.
  induction s as [|c s IH]; cbn.
  - constructor; [intros []|constructor].
  - destruct (N.eqb_spec c 10) as [->|Hc]; [constructor; [intros []|exact IH]|].
    destruct (split_lines s) as [|l r]; [constructor; [intros [E|[]]; congruence|constructor]|].
    inversion_clear IH. constructor; [|assumption]. intros [E|Hi]; [congruence|contradiction].
Qed.

Lemma split_join : forall s, separated nl (split_lines s) = s.
Proof.
  induction s as [|c s IH]; [reflexivity|]. cbn [split_lines].
  destruct (N.eqb_spec c 10) as [->|Hc].
  - rewrite separated_cons by apply split_ne. now rewrite IH.
  - pose proof (split_ne s) as Hn. destruct (split_lines s) as [|l r]; [congruence|].
    destruct r as [|u r]; [cbn in *; now rewrite IH|].
    rewrite separated_cons in * by discriminate. cbn [app]. now rewrite IH.
Qed.

Lemma split_line : forall s, plain_line s -> split_lines s = [s].
Proof.
  induction s as [|c s IH]; intros H; [reflexivity|]. cbn [split_lines].
  destruct (N.eqb_spec c 10) as [->|Hc]; [exfalso; apply H; now left|].
  rewrite IH; [reflexivity|]. intros Hi. apply H. now right.
Qed.

(** Lines each followed by a newline. *)
Definition ended (ls : list text) : text := flat_map (fun l => l ++ nl) ls.

Lemma ended_separated : forall ls, ls <> [] -> separated nl ls ++ nl = ended ls.
Proof.
  induction ls as [|l r IH]; intros H; [congruence|]. destruct r as [|u r].
  - cbn. now rewrite app_nil_r.
  - rewrite separated_cons by discriminate. change (ended (l :: u :: r)) with ((l ++ nl) ++ ended (u :: r)).
    rewrite <- IH by discriminate. now rewrite <- !app_assoc.
Qed.

Lemma ended_app : forall a b, ended (a ++ b) = ended a ++ ended b.
Proof. intros. apply flat_map_app. Qed.

Lemma ended_tail : forall ls t, ended ls ++ t = separated nl (ls ++ [t]).
Proof.
  induction ls as [|l r IH]; intros t; [reflexivity|]. change (ended (l :: r)) with ((l ++ nl) ++ ended r).
  cbn [app]. rewrite separated_cons by now destruct r. rewrite <- IH. now rewrite <- !app_assoc.
Qed.

Lemma pad_rest : forall l, plain_line l -> pad false (l ++ nl) = l ++ nl.
Proof.
  induction l as [|c l IH]; intros H; [reflexivity|]. cbn [app pad].
  destruct (N.eqb_spec c 10) as [->|Hc]; [exfalso; apply H; now left|].
  rewrite IH; [reflexivity|]. intros Hi. apply H. now right.
Qed.

Lemma pad_start : forall l, plain_line l -> pad true (l ++ nl) = txt "    " ++ l ++ nl.
Proof.
  intros [|c l] H; [reflexivity|]. cbn [app pad].
  destruct (N.eqb_spec c 10) as [->|Hc]; [exfalso; apply H; now left|].
  rewrite pad_rest; [reflexivity|]. intros Hi. apply H. now right.
Qed.

Lemma pad_lines : forall ls, Forall plain_line ls -> pad true (ended ls) = ended (indent ls).
Proof.
  induction ls as [|l r IH]; intros H; [reflexivity|]. inversion_clear H as [|? ? Hl Hr].
  change (ended (l :: r)) with ((l ++ nl) ++ ended r). rewrite pad_line, pad_start, IH by assumption.
  change (ended (indent (l :: r))) with (((txt "    " ++ l) ++ nl) ++ ended (indent r)).
  now rewrite <- !app_assoc.
Qed.

Lemma comma_ne : forall ls, ls <> [] -> comma ls <> [].
Proof. intros [|l [|u r]] H; [congruence|discriminate|discriminate]. Qed.

Lemma comma_text : forall ls, ls <> [] -> separated nl (comma ls) = separated nl ls ++ txt ",".
Proof.
  induction ls as [|l r IH]; intros H; [congruence|]. destruct r as [|u r]; [reflexivity|].
  change (comma (l :: u :: r)) with (l :: comma (u :: r)).
  rewrite !separated_cons by (try discriminate; apply comma_ne; discriminate).
  rewrite IH by discriminate. now rewrite <- !app_assoc.
Qed.

Lemma comma_plain : forall ls, Forall plain_line ls -> Forall plain_line (comma ls).
Proof.
  induction ls as [|l r IH]; intros H; [constructor|]. inversion_clear H as [|? ? Hl Hr].
  destruct r as [|u r].
  - constructor; [|constructor]. apply plain_app; [exact Hl|plain_lit].
  - constructor; [exact Hl|now apply IH].
Qed.

Lemma labelled_text : forall label ls, ls <> [] ->
  separated nl (labelled label ls) = label ++ separated nl ls.
Proof.
  intros label [|l r] H; [congruence|]. cbn [labelled]. destruct r as [|u r]; [reflexivity|].
  rewrite !separated_cons by discriminate. now rewrite <- !app_assoc.
Qed.

Lemma labelled_ne : forall label ls, labelled label ls <> [].
Proof. intros label [|l r]; discriminate. Qed.

Lemma labelled_plain : forall label ls, plain_line label -> Forall plain_line ls ->
  Forall plain_line (labelled label ls).
Proof.
  intros label [|l r] H Hl; [constructor; [exact H|constructor]|].
  inversion_clear Hl. constructor; [now apply plain_app|assumption].
Qed.

Lemma indent_plain : forall ls, Forall plain_line ls -> Forall plain_line (indent ls).
Proof.
  intros ls H. apply Forall_map. eapply Forall_impl; [|exact H]. cbv beta. intros l Hl.
  apply plain_app; [plain_lit|exact Hl].
Qed.

(** What [pad] makes of one entry. *)
Lemma pad_entry : forall label ls, plain_line label -> ls <> [] -> Forall plain_line ls ->
  pad true (label ++ separated nl ls ++ txt "," ++ nl) = ended (indent (labelled label (comma ls))).
Proof.
  intros label ls Hp Hn Hl. rewrite <- pad_lines by (apply labelled_plain; [exact Hp|now apply comma_plain]).
  f_equal. rewrite <- ended_separated by apply labelled_ne.
  rewrite labelled_text by now apply comma_ne. rewrite comma_text by exact Hn. now rewrite <- !app_assoc.
Qed.

Lemma labelled_nil : forall ls, ls <> [] -> labelled [] ls = ls.
Proof. intros [|l r] H; [congruence|reflexivity]. Qed.

(** ** Leaves, structs, tuples and lists *)
Lemma shown_leaf : forall d one many, d false = Ok one -> d true = Ok many -> shown d (Leaf one many).
Proof.
  intros d one many H1 H2. split; [|split; [apply split_ne|apply split_plain]].
  split; [exact H1|]. unfold several_lines. cbn [many_lines]. now rewrite split_join.
Qed.

Lemma shown_atom : forall d t, d false = Ok t -> d true = Ok t -> shown d (atom t).
Proof. intros d t H1 H2. now apply shown_leaf. Qed.

Lemma shown_dec : forall n, shown (d_dec n) (atom (dec n)).
Proof. intros n. now apply shown_atom. Qed.

Inductive shown_fields : list (string * fmt) -> list (string * tree) -> Prop :=
| SF0 : shown_fields [] []
| SF1 : forall n d t fs ts, plain_name n = true -> shown d t -> shown_fields fs ts ->
    shown_fields ((n, d) :: fs) ((n, t) :: ts).

Lemma shown_fields_app : forall fs ts gs us, shown_fields fs ts -> shown_fields gs us ->
  shown_fields (fs ++ gs) (ts ++ us).
Proof. intros fs ts gs us H H'. induction H; [exact H'|now constructor]. Qed.

Lemma fields_plain_text : forall fs ts sep, shown_fields fs ts -> ts <> [] ->
  fields_plain sep fs =
  Ok (txt sep ++ separated (txt ", ") (map (fun p => txt (fst p) ++ txt ": " ++ one_line (snd p)) ts)).
Proof.
  intros fs ts sep H. revert sep. induction H as [|n d t fs ts Hn [[E _] _] H IH]; intros sep Hne; [congruence|].
  cbn [fields_plain]. rewrite E. cbn [obind]. destruct H as [|m d' t' fs ts Hm Hd H].
  - cbn. now rewrite app_nil_r, <- ?app_assoc.
  - rewrite IH by discriminate. cbn [obind]. f_equal. set (l := (m, t') :: ts) in *.
    cbn [map fst snd]. rewrite (separated_cons _ (txt n ++ _)) by (subst l; discriminate).
    now rewrite <- !app_assoc.
Qed.

Lemma fields_pretty_text : forall fs ts, shown_fields fs ts ->
  fields_pretty fs =
  Ok (ended (flat_map (fun p => indent (labelled (txt (fst p) ++ txt ": ") (comma (many_lines (snd p))))) ts)).
Proof.
  intros fs ts H. induction H as [|n d t fs ts Hn Hd H IH]; [reflexivity|].
  destruct Hd as ((_ & E) & Hne & Hp). cbn [fields_pretty]. rewrite E, IH. cbn [obind]. f_equal.
  cbn [flat_map fst snd]. rewrite ended_app. f_equal. unfold several_lines.
  rewrite <- pad_entry; [now rewrite <- !app_assoc| |exact Hne|exact Hp].
  apply plain_app; [now apply name_plain|plain_lit].
Qed.

Lemma fields_lines_plain : forall fs ts, shown_fields fs ts ->
  Forall plain_line
    (flat_map (fun p => indent (labelled (txt (fst p) ++ txt ": ") (comma (many_lines (snd p))))) ts).
Proof.
  intros fs ts H. induction H as [|n d t fs ts Hn Hd H IH]; [constructor|]. cbn [flat_map fst snd].
  apply Forall_app. split; [|exact IH]. apply indent_plain, labelled_plain.
  - apply plain_app; [now apply name_plain|plain_lit].
  - apply comma_plain, Hd.
Qed.

Lemma shown_struct : forall name fs ts (full : bool), plain_name name = true -> shown_fields fs ts ->
  shown (d_struct name fs full) (Struct name ts (negb full)).
Proof.
  intros name fs ts full Hname H. apply name_plain in Hname. destruct H as [|n d t fs ts Hn Hd H].
  - split; [split|split].
    + cbn. destruct full; cbn; [now rewrite app_nil_r|reflexivity].
    + cbn. unfold several_lines. cbn. now destruct full.
    + discriminate.
    + constructor; [|constructor]. apply plain_app; [exact Hname|]. destruct full; cbn; [intros []|plain_lit].
  - assert (HF := SF1 n d t fs ts Hn Hd H). set (FS := (n, d) :: fs) in *. set (TS := (n, t) :: ts) in *.
    assert (Hts : TS <> []) by discriminate. split; [split|split].
    + change (d_struct name FS full false)
        with (obind (fields_plain " { " FS) (fun s => Ok (txt name ++ s ++ (if full then txt " }" else txt ", .. }")))).
      rewrite (fields_plain_text FS TS " { " HF Hts). cbn [obind]. f_equal.
      cbn [one_line].
      set (P := map (fun p : string * tree => txt (fst p) ++ txt ": " ++ one_line (snd p)) TS).
      assert (HP : P <> []) by (subst P TS; discriminate).
      destruct full; cbn [negb].
      * rewrite app_nil_r. destruct P as [|u P]; [congruence|]. now rewrite <- !app_assoc.
      * destruct (P ++ [txt ".."]) as [|u Q] eqn:EQ; [now destruct P|]. rewrite <- EQ.
        rewrite separated_app by (try exact HP; discriminate). cbn [separated]. now rewrite <- !app_assoc.
    + change (d_struct name FS full true)
        with (obind (fields_pretty FS) (fun s => Ok (txt name ++ txt " {" ++ nl ++ s
                ++ (if full then [] else pad true (txt ".." ++ nl)) ++ txt "}"))).
      rewrite (fields_pretty_text FS TS HF). cbn [obind]. f_equal. unfold several_lines.
      change (many_lines (Struct name TS (negb full))) with
        ([txt name ++ txt " {"]
          ++ flat_map (fun p => indent (labelled (txt (fst p) ++ txt ": ") (comma (many_lines (snd p))))) TS
          ++ (if negb full then [txt "    .."] else [])
          ++ [txt "}"]).
      rewrite !app_assoc, <- ended_tail, !ended_app. destruct full; cbn [negb ended flat_map];
        rewrite ?app_nil_r, <- ?app_assoc; reflexivity.
    + discriminate.
    + change (many_lines (Struct name TS (negb full))) with
        ([txt name ++ txt " {"]
          ++ flat_map (fun p => indent (labelled (txt (fst p) ++ txt ": ") (comma (many_lines (snd p))))) TS
          ++ (if negb full then [txt "    .."] else [])
          ++ [txt "}"]).
      rewrite !Forall_app. repeat split.
      * constructor; [|constructor]. apply plain_app; [exact Hname|plain_lit].
      * exact (fields_lines_plain FS TS HF).
      * destruct full; cbn; [constructor|]. constructor; [plain_lit|constructor].
      * constructor; [plain_lit|constructor].
Qed.

Lemma shown_tuple : forall name d t, plain_name name = true -> shown d t ->
  shown (d_tuple1 name d) (Tuple name t).
Proof.
  intros name d t Hname ((E1 & E2) & Hne & Hp). apply name_plain in Hname. split; [split|split].
  - unfold d_tuple1. now rewrite E1.
  - unfold d_tuple1. rewrite E2. cbn [obind]. f_equal. unfold several_lines.
    assert (E : pad true (separated nl (many_lines t) ++ txt "," ++ nl) = ended (indent (comma (many_lines t)))).
    { rewrite <- (labelled_nil (comma (many_lines t))) by now apply comma_ne.
      rewrite <- pad_entry; [reflexivity|intros []|exact Hne|exact Hp]. }
    rewrite E. cbn [many_lines]. rewrite !app_assoc, <- ended_tail, ended_app.
    cbn [ended flat_map]. rewrite ?app_nil_r, <- ?app_assoc. reflexivity.
  - discriminate.
  - cbn [many_lines]. rewrite !Forall_app. repeat split.
    + constructor; [|constructor]. apply plain_app; [exact Hname|plain_lit].
    + now apply indent_plain, comma_plain.
    + constructor; [plain_lit|constructor].
Qed.

Lemma items_plain_text : forall ds ts sep, Forall2 shown ds ts -> ts <> [] ->
  items_plain sep ds = Ok (txt sep ++ separated (txt ", ") (map one_line ts)).
Proof.
  intros ds ts sep H. revert sep. induction H as [|d t ds ts [[E _] _] H IH]; intros sep Hne; [congruence|].
  cbn [items_plain]. rewrite E. cbn [obind]. destruct H as [|d' t' ds ts Hd H].
  - cbn. now rewrite app_nil_r.
  - rewrite IH by discriminate. reflexivity.
Qed.

Lemma items_pretty_text : forall ds ts, Forall2 shown ds ts ->
  items_pretty ds = Ok (ended (flat_map (fun t => indent (comma (many_lines t))) ts)).
Proof.
  intros ds ts H. induction H as [|d t ds ts Hd H IH]; [reflexivity|].
  destruct Hd as ((_ & E) & Hne & Hp). cbn [items_pretty]. rewrite E, IH. cbn [obind]. f_equal.
  cbn [flat_map]. rewrite ended_app. f_equal. unfold several_lines.
  rewrite <- (labelled_nil (comma (many_lines t))) by now apply comma_ne.
  rewrite <- pad_entry; [reflexivity|intros []|exact Hne|exact Hp].
Qed.

Lemma shown_list : forall ds ts, Forall2 shown ds ts -> shown (d_list ds) (Items ts).
Proof.
  intros ds ts H. destruct H as [|d t ds ts Hd H].
  - split; [split; reflexivity|]. split; [discriminate|]. constructor; [plain_lit|constructor].
  - assert (HF := Forall2_cons d t Hd H). set (DS := d :: ds) in *. set (TS := t :: ts) in *.
    assert (Hts : TS <> []) by discriminate. split; [split|split].
    + change (d_list DS false) with (obind (items_plain "" DS) (fun s => Ok (txt "[" ++ s ++ txt "]"))).
      now rewrite (items_plain_text DS TS "" HF Hts).
    + change (d_list DS true) with (obind (items_pretty DS) (fun s => Ok (txt "[" ++ nl ++ s ++ txt "]"))).
      rewrite (items_pretty_text DS TS HF). cbn [obind]. f_equal. unfold several_lines.
      change (many_lines (Items TS)) with
        ([txt "["] ++ flat_map (fun t => indent (comma (many_lines t))) TS ++ [txt "]"]).
      rewrite !app_assoc, <- ended_tail, ended_app. cbn [ended flat_map app]. now rewrite <- ?app_assoc.
    + discriminate.
    + change (many_lines (Items TS)) with
        ([txt "["] ++ flat_map (fun t => indent (comma (many_lines t))) TS ++ [txt "]"]).
      rewrite !Forall_app. repeat split; try (constructor; [plain_lit|constructor]).
      clear - HF. revert HF. generalize DS TS. clear. intros ds ts H.
      induction H as [|d t ds ts Hd H IH]; [constructor|]. cbn [flat_map]. apply Forall_app.
      split; [|exact IH]. apply indent_plain, comma_plain, Hd.
Qed.

Lemma shown_map : forall A (d : A -> fmt) (f : A -> tree) l, (forall a, shown (d a) (f a)) ->
  shown (d_list (map d l)) (Items (map f l)).
Proof. intros A d f l H. apply shown_list. induction l; constructor; [apply H|assumption]. Qed.

(** Fields that may be absent. *)
Fixpoint given (l : list (string * option tree)) : list (string * tree) :=
  match l with
  | [] => []
  | (n, Some t) :: r => (n, t) :: given r
  | (_, None) :: r => given r
  end.
