(** Records have the layout of their picture, and what has it is read alike. *)
From Coq Require Import NArith List Bool Lia.
From Verif Require Import Base BaseFacts Types Platform Config Bits ConfFacts Records Sample
  Record Attr Flat Wire Codec Roundtrip Accept AcceptFacts Picture.
Import ListNotations.
Open Scope N_scope.

Lemma fits_len : forall q bs, fits q bs -> len q = len bs.
Proof. intros q bs H. unfold len. f_equal. induction H; [reflexivity|]. cbn [length]. now f_equal. Qed.

Lemma len_just : forall l, len (just l) = len l.
Proof. intros l. unfold len, just. now rewrite map_length. Qed.

Lemma laid_fits : forall fs bs rest, laid fs bs rest -> fits (concat (map fst fs)) bs.
Proof.
  induction fs as [|[q d] fs IH]; intros bs rest H; cbn [laid map concat fst] in *; [now apply fits_nil|].
  destruct H as (b1 & b2 & -> & H1 & _ & H2). apply fits_app_intro; [exact H1|]. eapply IH, H2.
Qed.

(** Parts of the same lengths can be found in the same places. *)
Definition alike (x y : layout * bool) : Prop := len (fst x) = len (fst y) /\ snd x = snd y.

Lemma relaid : forall fs fs' bs bs2 rest rest2,
  laid fs bs rest -> Forall2 alike fs fs' -> fits (concat (map fst fs')) bs2 -> len rest2 = len rest ->
  laid fs' bs2 rest2.
Proof.
  intros fs fs' bs bs2 rest rest2 H HA. revert bs bs2 H.
  induction HA as [|[q d] [q' d'] fs fs' [Hq Hd] HA IH]; intros bs bs2 H F Hr; cbn [map concat fst snd laid] in *.
  - now apply fits_nil in F.
  - subst d'. destruct H as (b1 & b2 & -> & F1 & Hne & H). apply fits_app in F as (c1 & c2 & -> & G1 & G2).
    exists c1, c2. split; [reflexivity|]. split; [exact G1|]. split; [|eapply IH; eassumption].
    intros E. specialize (Hne E). intros Z. apply Hne.
    assert (L2 : len b2 = len c2).
    { apply laid_fits in H. apply fits_len in H, G2.
      assert (K : len (concat (map fst fs)) = len (concat (map fst fs'))).
      { clear - HA. induction HA as [|x y fs fs' [E _] HA IH]; [reflexivity|]. cbn [map concat]. rewrite !len_app. congruence. }
      congruence. }
    apply app_eq_nil in Z as [-> ->]. rewrite !len_nil in *.
    apply len_0 in L2. symmetry in Hr. apply len_0 in Hr. now subst.
Qed.

Lemma fits_weaken : forall a q q' b bs, (forall x, fits q x -> fits q' x) -> fits (a ++ q ++ b) bs -> fits (a ++ q' ++ b) bs.
Proof.
  intros a q q' b bs H F. apply fits_app in F as (b1 & b2 & -> & F1 & F2). apply fits_app in F2 as (b3 & b4 & -> & F2 & F3).
  apply fits_app_intro; [exact F1|]. apply fits_app_intro; [now apply H|exact F3].
Qed.

Section Facts.
Context (bits : N) (host o : order) (w : settings).

Lemma counter_words_len : forall k, len (counter_words w k) = counter_size w.
Proof. intros k. unfold counter_words, counter_size. destruct (rbit w 2), (rbit w 4); reflexivity. Qed.

Lemma counters_len : forall ks, len (concat (map (counter_words w) ks)) = len ks * counter_size w.
Proof.
  induction ks as [|k ks IH]; [reflexivity|]. cbn [map concat]. rewrite len_app, len_cons, IH, counter_words_len. lia.
Qed.

Lemma w_list_app : forall A (f : A -> list N) a b, w_list f (a ++ b) = w_list f a ++ w_list f b.
Proof. intros. unfold w_list. now rewrite map_app, concat_app. Qed.

Lemma counters_words : forall ks, w_list (w64 o) (concat (map (counter_words w) ks)) = w_list (w_counter o w) ks.
Proof.
  induction ks as [|k ks IH]; [reflexivity|]. cbn [map concat]. rewrite w_list_app, IH. unfold w_list at 2. cbn [map concat].
  f_equal. unfold counter_words, w_counter, w_list. destruct (rbit w 2), (rbit w 4); cbn [app map concat w_if];
    now rewrite ?app_nil_r.
Qed.

Lemma values_back : forall v, values_ok w v -> l_values bits o w v = p_values bits o w (group_of w v).
Proof.
  intros [v|te tr ks] H; cbn [values_ok l_values group_of p_values] in *; unfold p_values; cbn [rg_data rg_enabled rg_running].
  - destruct H as [-> _]. f_equal. unfold counter_words, w_read_value. cbn [ct_value ct_id ct_lost].
    set (idl := (if rbit w 2 then _ else _) ++ _).
    change (rv_value v :: idl) with ([rv_value v] ++ idl). rewrite take_app_exact, drop_app_exact by reflexivity.
    unfold w_list at 1. cbn [map concat]. rewrite app_nil_r, <- app_assoc. do 3 f_equal.
    unfold idl, w_list. destruct (rbit w 2), (rbit w 4); cbn [app map concat w_if]; now rewrite ?app_nil_r.
  - destruct H as [-> _]. rewrite counters_len, N.div_mul, counters_words, <- app_assoc; [reflexivity|].
    unfold counter_size. lia.
Qed.

Definition retail (x : sample_wire) (tail : list N) : sample_wire := mkSampleWire (sw_sample x) (sw_values x) tail.

Lemma sample_flat : forall x, sample_given w x ->
  concat (map fst (l_sample bits host o w x)) =
  p_before bits o w (sw_sample x) ++
  l_opt (s_stack_user (sw_sample x)) (fun d => l_stack bits o (d ++ sw_stack_tail x) (len d)) ++
  p_after bits o w (sw_sample x).
Proof.
  intros x (_ & _ & _ & _ & _ & _ & _ & _ & _ & (_ & Hv & Ev & _) & _).
  assert (E : l_opt (sw_values x) (l_values bits o w) = l_opt (s_values (sw_sample x)) (p_values bits o w)).
  { rewrite Ev. destruct (sw_values x) as [v|]; [|reflexivity]. now apply values_back. }
  unfold l_sample, p_before, p_after. cbn [map fst concat]. rewrite E, app_nil_r.
  destruct (sbit w 1); cbn [w_if]; rewrite ?just_app, <- !app_assoc; reflexivity.
Qed.

Lemma stack_shown : forall d tail bs, fits (l_stack bits o (d ++ tail) (len d)) bs -> fits (p_stack bits o d (len tail)) bs.
Proof.
  intros d tail bs. unfold l_stack, p_stack. rewrite len_app, just_app, <- app_assoc. intros H.
  rewrite app_assoc in H |- *. rewrite (app_assoc _ (any _)).
  rewrite <- (app_assoc _ (any _)). revert H. apply fits_weaken. intros y Hy. apply fits_just in Hy. subst y. now apply fits_any.
Qed.

Lemma stack_found : forall d t bs, fits (p_stack bits o d t) bs ->
  exists tail, len tail = t /\ fits (l_stack bits o (d ++ tail) (len d)) bs.
Proof.
  intros d t bs. unfold l_stack, p_stack. intros H. apply fits_app in H as (b1 & b2 & -> & F1 & H).
  apply fits_app in H as (b3 & b4 & -> & F2 & H). apply fits_app in H as (tail & b5 & -> & F3 & F4).
  apply fits_any in F3. exists tail. split; [exact F3|]. rewrite len_app, F3.
  apply fits_app_intro; [exact F1|]. rewrite just_app, <- app_assoc. apply fits_app_intro; [exact F2|].
  apply fits_app_intro; [apply fits_refl|exact F4].
Qed.

Lemma sample_shown : forall x bs, sample_given w x -> fits (concat (map fst (l_sample bits host o w x))) bs ->
  fits (p_sample bits o w (sw_sample x) (len (sw_stack_tail x))) bs.
Proof.
  intros x bs Hx. rewrite sample_flat by exact Hx. apply fits_weaken. intros y.
  destruct (s_stack_user (sw_sample x)) as [d|]; cbn [l_opt]; [apply stack_shown|auto].
Qed.

Lemma sample_found : forall x t bs, sample_given w x -> fits (p_sample bits o w (sw_sample x) t) bs ->
  exists tail, len tail = t /\ fits (concat (map fst (l_sample bits host o w (retail x tail)))) bs.
Proof.
  intros x t bs Hx F. unfold p_sample in F.
  apply fits_app in F as (b1 & b2 & -> & F1 & F2). apply fits_app in F2 as (b3 & b4 & -> & F2 & F3).
  assert (G : exists tail, len tail = t /\
    fits (l_opt (s_stack_user (sw_sample x)) (fun d => l_stack bits o (d ++ tail) (len d))) b3).
  { destruct (s_stack_user (sw_sample x)) as [d|]; cbn [l_opt] in *; [now apply stack_found|].
    exists (zeros t). split; [unfold zeros, len; rewrite repeat_length; apply N2Nat.id|exact F2]. }
  destruct G as (tail & Ht & G). exists tail. split; [exact Ht|].
  rewrite sample_flat by exact Hx. cbn [retail sw_sample sw_stack_tail].
  apply fits_app_intro; [exact F1|]. now apply fits_app_intro.
Qed.

Lemma retail_alike : forall x tail, len tail = len (sw_stack_tail x) ->
  Forall2 alike (l_sample bits host o w x) (l_sample bits host o w (retail x tail)).
Proof.
  intros x tail H. unfold l_sample. cbn [retail sw_sample sw_values sw_stack_tail].
  repeat (apply Forall2_cons; [first [split; reflexivity|idtac]|]); [|apply Forall2_nil].
  destruct (s_stack_user (sw_sample x)) as [d|]; [|split; reflexivity].
  unfold alike. cbn [fst snd l_opt empty]. unfold l_stack. rewrite !len_app, H. split; [|reflexivity].
  rewrite !len_just, !len_app, H. reflexivity.
Qed.

Lemma id_part : forall m si b, body_given w m b ->
  p_id o w (mkMeta (w_type b) m si) = if ends_in_id b then l_sample_id o w si else [].
Proof.
  intros m si b H. unfold p_id. cbn [md_ty md_sample_id].
  destruct b; cbn [w_type ends_in_id N.eqb Pos.eqb orb]; try reflexivity.
  cbn [body_given] in H. destruct H as (H & _).
  destruct (N.eqb_spec t 1) as [->|]; [lia|]. destruct (N.eqb_spec t 9) as [->|]; [lia|]. reflexivity.
Qed.

(** The string in a body has the zeros there is room for. *)
Lemma str_len : forall s k, len (w_str s k) = len s + k.
Proof. intros s k. unfold w_str, zeros. rewrite len_app. unfold len at 2. rewrite repeat_length. lia. Qed.

Lemma detail_len : forall m d, detail_given m d -> len (l_detail o d) = 24 /\ len (w_detail o d) = 24.
Proof.
  intros m [maj min ino gen|b n] H; cbn [l_detail w_detail detail_given] in *.
  - rewrite len_just, !len_app, !w64_len, !w32_len. split; reflexivity.
  - destruct H as (_ & Hb & _). rewrite !len_app, !len_just, !w8_len, w16_len, Hb. split; reflexivity.
Qed.

Lemma zeros_back : forall m b body unread, body_given w m b -> (forall x, b <> WSample x) ->
  laid (l_body bits host o w b) body unread -> (takes_all b -> unread = []) ->
  back (w_type b) (expected b)
    (len body + len unread - len (w_body o w (back (w_type b) (expected b) 0))) = b.
Proof.
  intros m b body unread Hb Hs H Hu. apply laid_fits, fits_len in H. rewrite <- H.
  destruct b; cbn [back w_type expected]; try reflexivity; try (now elim (Hs x));
    cbn [takes_all] in Hu; rewrite (Hu I), len_nil; cbn [l_body map fst concat w_body]; f_equal;
    rewrite ?app_nil_r, ?len_app, ?len_just, ?len_app, ?str_len; try lia.
  cbn [body_given] in Hb. destruct Hb as (_ & _ & _ & _ & _ & Hd & _).
  destruct (detail_len _ _ Hd) as [E1 E2]. rewrite E1. lia.
Qed.

Lemma body_flat : forall m b body unread t, body_given w m b -> (forall x, b <> WSample x) ->
  laid (l_body bits host o w b) body unread -> (takes_all b -> unread = []) ->
  p_body bits o w (w_type b) (expected b) (len body + len unread) t = concat (map fst (l_body bits host o w b)).
Proof.
  intros m b body unread t Hb Hs H Hu.
  pose proof (zeros_back m b body unread Hb Hs H Hu) as E.
  destruct b; try (now elim (Hs x)); unfold p_body; cbn [expected] in *; rewrite E; reflexivity.
Qed.

(** A body and the room for it, of given lengths. *)
Lemma body_picture : forall m b body unread, body_given w m b ->
  laid (l_body bits host o w b) body unread -> (takes_all b -> unread = []) ->
  exists t, let q := p_body bits o w (w_type b) (expected b) (len body + len unread) t in
  fits q body /\
  forall body2 unread2, fits q body2 -> len unread2 = len unread ->
    exists b2, w_type b2 = w_type b /\ expected b2 = expected b /\ ends_in_id b2 = ends_in_id b /\
      body_given w m b2 /\ laid (l_body bits host o w b2) body2 unread2 /\ (takes_all b2 -> unread2 = []).
Proof.
  intros m b body unread Hb H Hu.
  assert (D : (exists x, b = WSample x) \/ forall x, b <> WSample x).
  { destruct b; ((right; discriminate) || (left; eauto)). }
  destruct D as [[x ->]|Hs].
  - exists (len (sw_stack_tail x)). cbn [p_body expected]. cbn [l_body] in H. split.
    + apply sample_shown; [exact Hb|]. eapply laid_fits, H.
    + intros body2 unread2 F Hl. destruct (sample_found x _ body2 Hb F) as (tail & Ht & G).
      exists (WSample (retail x tail)). cbn [w_type expected ends_in_id takes_all l_body body_given].
      do 3 (split; [reflexivity|]). split; [exact Hb|]. split; [|contradiction].
      eapply relaid; [exact H|now apply retail_alike|exact G|exact Hl].
  - exists 0. cbv zeta. rewrite (body_flat m b body unread 0 Hb Hs H Hu). split; [eapply laid_fits, H|].
    intros body2 unread2 F Hl. exists b. do 3 (split; [reflexivity|]). split; [exact Hb|]. split.
    + eapply relaid; [exact H| |exact F|exact Hl]. clear. induction (l_body bits host o w b); constructor; [now split|assumption].
    + intros T. specialize (Hu T). subst unread. now apply len_0.
Qed.

Lemma record_picture : forall m si b bs, is_record bits host o w m si b bs ->
  exists t, let q := picture bits o w (expected b) (mkMeta (w_type b) m si) (len bs) t in
  fits q bs /\
  forall bs2, fits q bs2 ->
    exists b2, w_type b2 = w_type b /\ expected b2 = expected b /\ is_record bits host o w m si b2 bs2.
Proof.
  intros m si b bs (body & unread & tail & Ebs & Hn & Hm & Hb & H & Hu & Hid).
  destruct (body_picture m b body unread Hb H Hu) as (t & F & G). exists t. cbv zeta in *.
  unfold picture. cbn [md_ty md_misc]. rewrite (id_part m si b Hb).
  set (pid := if ends_in_id b then l_sample_id o w si else []).
  assert (Fid : fits pid tail).
  { unfold pid. destruct (ends_in_id b); [apply Hid|]. apply fits_nil, Hid. }
  pose proof (fits_len _ _ Fid) as Lid.
  assert (Ln : len bs = 8 + (len body + len unread + len tail)).
  { rewrite Ebs, !len_app, w_header_len. lia. }
  replace (len bs - 8 - len pid) with (len body + len unread) by lia.
  set (q := p_body bits o w (w_type b) (expected b) (len body + len unread) t) in *.
  pose proof (fits_len _ _ F) as Lq. replace (len body + len unread - len q) with (len unread) by lia.
  assert (En : 8 + len (body ++ unread ++ tail) = len bs) by (rewrite !len_app; lia).
  split.
  - rewrite Ebs at 2. apply fits_app_intro; [apply fits_just; now rewrite En|].
    apply fits_app_intro; [exact F|]. apply fits_app_intro; [now apply fits_any|exact Fid].
  - intros bs2 F2. apply fits_app in F2 as (hd & r & -> & F3 & F2). apply fits_just in F3. subst hd.
    apply fits_app in F2 as (body2 & r2 & -> & F3 & F2). apply fits_app in F2 as (unread2 & tail2 & -> & F4 & F5).
    apply fits_any in F4.
    destruct (G body2 unread2 F3 F4) as (b2 & T & E & Ei & Hb2 & H2 & Hu2). exists b2. split; [exact T|]. split; [exact E|].
    assert (L2 : 8 + len (body2 ++ unread2 ++ tail2) = len bs).
    { rewrite !len_app, F4. pose proof (fits_len _ _ F3). pose proof (fits_len _ _ F5). lia. }
    exists body2, unread2, tail2. cbv zeta. rewrite L2, T, Ei. split; [reflexivity|]. split; [lia|]. split; [exact Hm|].
    split; [exact Hb2|]. split; [exact H2|]. split; [exact Hu2|].
    unfold pid in F5. destruct (ends_in_id b); [now split|]. split; [apply Hid|now apply fits_nil].
Qed.
End Facts.
