(** Refinement for [parse_slice]. *)
From Coq Require Import NArith List Bool Lia.
From Verif Require Import Base BaseFacts Types Platform Config Buf Parser Contract Flat Refine.
From Verif Require Import Instances Prims Records Sample.
Import ListNotations.
Open Scope N_scope.

Lemma decode_nil : forall B (E : felem B) o, decode E o [] = [].
Proof. reflexivity. Qed.

Lemma decode_app : forall B (E : felem B) o x l, 0 < fl_size E -> len x = fl_size E ->
  decode E o (x ++ l) = fl_dec E o x :: decode E o l.
Proof. intros; unfold decode; rewrite chunks_app by assumption; reflexivity. Qed.

Lemma decode_len : forall B (E : felem B) o l n, 0 < fl_size E -> len l = n * fl_size E ->
  len (decode E o l) = n.
Proof.
  intros B E o l n H1 H2; unfold decode. unfold len at 1. rewrite map_length.
  change (len (chunks (fl_size E) l) = n). rewrite len_chunks, H2 by assumption.
  apply N.div_mul; lia.
Qed.

(** [f_take] in two steps. *)
Lemma f_take_plus : forall a b env l pos, 0 < b ->
  f_take (a + b) env l pos
  = (x <~ f_take a ;; y <~ f_take b ;; fret (x ++ y)) env l pos.
Proof.
  intros a b env l pos Hb. unfold fbind, f_take.
  destruct l as [|h t]; [reflexivity|]. remember (h :: t) as l eqn:El. clear El h t.
  destruct (N.ltb_spec (len l) a) as [H1|H1].
  - replace (len l <? a + b) with true by (symmetry; apply N.ltb_lt; lia). reflexivity.
  - destruct (N.ltb_spec (len l) (a + b)) as [H2|H2].
    + destruct (drop a l) as [|h t] eqn:Ed.
      * apply drop_eq_nil in Ed. cbn. do 2 f_equal; lia.
      * rewrite <- Ed, len_drop.
        replace (len l - a <? b) with true by (symmetry; apply N.ltb_lt; lia).
        cbn. f_equal; lia.
    + destruct (drop a l) as [|h t] eqn:Ed.
      { apply drop_eq_nil in Ed; lia. }
      rewrite <- Ed, len_drop.
      replace (len l - a <? b) with false by (symmetry; apply N.ltb_ge; lia).
      cbn. rewrite take_plus, drop_drop. f_equal; lia.
Qed.

(** The order in force. *)
Definition env_order (pl : platform) (env : fenv) : order := order_of pl (c_endian (fe_cfg env)).

(** An element parser is right if it takes [fl_size] bytes and decodes them. *)
Definition f_elem {B} (pl : platform) (FE : felem B) : F B :=
  l <~ f_take (fl_size FE) ;; c <~ fcfg ;; fret (fl_dec FE (order_of pl (c_endian c)) l).

Lemma f_elem_eq : forall B pl (FE : felem B) env l pos, 0 < fl_size FE ->
  f_elem pl FE env l pos =
  if len l <? fl_size FE then FErr (fe_fin env) [] (pos + len l) []
  else FOk (fl_dec FE (env_order pl env) (take (fl_size FE) l)) (drop (fl_size FE) l)
           (pos + fl_size FE) [].
Proof.
  intros B pl FE env l pos H. unfold f_elem, fbind, f_take, fcfg, fret. destruct l as [|h t].
  - replace (len [] <? fl_size FE) with true by (symmetry; apply N.ltb_lt; rewrite len_nil; lia).
    rewrite len_nil, N.add_0_r. reflexivity.
  - destruct (len (h :: t) <? fl_size FE); reflexivity.
Qed.

Lemma mod_4_8 : forall x, x mod 4 = (x mod 8) mod 4.
Proof.
  intros x. rewrite (N.div_mod x 8) at 1 by discriminate.
  replace (8 * (x / 8) + x mod 8) with (x mod 8 + (2 * (x / 8)) * 4) by lia.
  apply N.mod_add. discriminate.
Qed.

Lemma mod_align : forall al x y, x mod 8 = y mod 8 -> x mod align_bytes al = y mod align_bytes al.
Proof. intros [] x y H; cbn [align_bytes]; [|exact H]. now rewrite (mod_4_8 x), (mod_4_8 y), H. Qed.

Lemma f_u64_eq : forall pl env l pos, f_uint pl 8 env l pos = f_elem pl fl_u64 env l pos.
Proof. reflexivity. Qed.

Lemma fbind_assoc : forall A B C (m : F A) (f : A -> F B) (g : B -> F C) env l pos,
  (y <~ (x <~ m ;; f x) ;; g y) env l pos = (x <~ m ;; y <~ f x ;; g y) env l pos.
Proof.
  intros A B C m f g env l pos. unfold fbind.
  destruct (m env l pos) as [a l1 p1 e1|e l1 p1 e1]; [|reflexivity].
  destruct (f a env l1 p1) as [b l2 p2 e2|e l2 p2 e2]; [|reflexivity].
  destruct (g b env l2 p2); now rewrite app_assoc.
Qed.

Lemma fbind_ext : forall A B (m m' : F A) (f f' : A -> F B) env l pos,
  (forall l pos, m env l pos = m' env l pos) ->
  (forall a l pos, f a env l pos = f' a env l pos) ->
  (x <~ m ;; f x) env l pos = (x <~ m' ;; f' x) env l pos.
Proof.
  intros A B m m' f f' env l pos H1 H2. unfold fbind. rewrite H1.
  destruct (m' env l pos); [|reflexivity]. now rewrite H2.
Qed.

(** Lengths are known when bytes were taken. *)
Lemma fbind_take_ext : forall B n (f f' : list N -> F B) env l pos,
  (forall a l pos, len a = n -> f a env l pos = f' a env l pos) ->
  (x <~ f_take n ;; f x) env l pos = (x <~ f_take n ;; f' x) env l pos.
Proof.
  intros B n f f' env l pos H. unfold fbind, f_take. destruct l as [|h t]; [reflexivity|].
  destruct (N.ltb_spec (len (h :: t)) n) as [H1|H1]; [reflexivity|].
  rewrite H by (rewrite len_take; lia). reflexivity.
Qed.

Lemma f_ns_eq : forall pl env l pos,
  f_elem pl fl_ns env l pos =
  (a <~ f_uint pl 8 ;; b <~ f_uint pl 8 ;; fret (mkNs a b)) env l pos.
Proof.
  intros pl env l pos. unfold f_elem, fl_ns; cbn [fl_size fl_dec].
  change 16 with (8 + 8) at 1.
  rewrite (fbind_ext _ _ _ (x <~ f_take 8 ;; y <~ f_take 8 ;; fret (x ++ y)) _ _ _ _ _
             (fun l pos => f_take_plus 8 8 env l pos eq_refl) (fun _ _ _ => eq_refl)).
  unfold f_uint. rewrite !fbind_assoc. apply fbind_take_ext; intros a l1 pos1 Ha.
  rewrite !fbind_assoc. unfold fbind at 1 2 3, fcfg, fret at 2.
  unfold fbind, f_take, fcfg, fret, env_order.
  destruct l1 as [|h t]; [reflexivity|]. remember (h :: t) as l2 eqn:El. clear El h t.
  destruct (len l2 <? 8); [reflexivity|]. cbn [app fe_cfg].
  rewrite take_app_exact, drop_app_exact by (symmetry; assumption). reflexivity.
Qed.

Lemma f_branch_eq : forall pl env l pos,
  f_elem pl fl_branch env l pos =
  (a <~ f_uint pl 8 ;; b <~ f_uint pl 8 ;; c <~ f_uint pl 8 ;; fret (mkBranch a b c)) env l pos.
Proof.
  intros pl env l pos. unfold f_elem, fl_branch; cbn [fl_size fl_dec].
  change 24 with (8 + (8 + 8)) at 1.
  rewrite (fbind_ext _ _ _ (x <~ f_take 8 ;; y <~ (y <~ f_take 8 ;; z <~ f_take 8 ;; fret (y ++ z)) ;; fret (x ++ y)) _
             (fun l0 => c <~ fcfg ;;
      fret
        {|
          be_from := from_order (order_of pl (c_endian c)) (take 8 l0);
          be_to := from_order (order_of pl (c_endian c)) (take 8 (drop 8 l0));
          be_flags := from_order (order_of pl (c_endian c)) (drop 16 l0)
        |}) env l pos); [|intros l1 pos1|reflexivity].
  2:{ rewrite f_take_plus by reflexivity. apply fbind_ext; [reflexivity|].
      intros; apply fbind_ext; [|reflexivity]. intros. now apply (f_take_plus 8 8). }
  unfold f_uint. rewrite !fbind_assoc. apply fbind_take_ext; intros a l1 pos1 Ha.
  rewrite !fbind_assoc. unfold fbind, f_take, fcfg, fret.
  destruct l1 as [|h t]; [reflexivity|]. remember (h :: t) as l2 eqn:El. clear El h t.
  destruct (N.ltb_spec (len l2) 8) as [H8|H8]; [reflexivity|].
  destruct (drop 8 l2) as [|h t]; [reflexivity|]. remember (h :: t) as l3 eqn:El. clear El h t.
  destruct (len l3 <? 8); [reflexivity|]. cbn [app fe_cfg].
  assert (Hb : len (take 8 l2) = 8) by (rewrite len_take; lia).
  rewrite take_app_exact by (symmetry; assumption).
  rewrite drop_app_exact by (symmetry; assumption).
  rewrite take_app_exact by (symmetry; assumption).
  rewrite app_assoc, drop_app_exact by (rewrite len_app; lia). reflexivity.
Qed.

Section Slices.
Context (pl : platform) {S : Type} (PB : parsebuf S) (mo : mode) (fin : perror) (cap : N)
  (mem : memory) (rep : S -> list N -> N -> Prop) (a0 : N).
Context (HC : contract PB mo fin cap mem rep) (Hcap : cap <= isize_max pl).
Context {A : Type} (E : elem A) (FE : felem A).
Context (Hsize : el_size E = fl_size FE) (Hpos : 0 < fl_size FE) (Hle : fl_size FE <= 16384)
  (Hnat : forall l, len l = fl_size FE -> el_native E l = fl_dec FE (pl_host pl) l)
  (Hel : Ref mo fin cap rep a0 eq (el_parse E PB) (f_elem pl FE)).

Notation Ref := (Ref mo fin cap rep a0).
Notation step := (step cap rep a0).

Lemma repeated_spec : forall n p l pos, rep (p_buf p) l (a0 + pos) -> wf l ->
  let '(r, p') := parse_repeated pl PB E n p in
  if len l <? n * fl_size FE
  then r = Err fin /\ step p l pos p' [] (pos + len l)
  else r = Ok (decode FE (order_of pl (c_endian (p_cfg p))) (take (n * fl_size FE) l)) /\
       step p l pos p' (drop (n * fl_size FE) l) (pos + n * fl_size FE).
Proof.
  intros n p l pos Hr Hw. unfold parse_repeated.
  set (h := unwrap_or (pb_hint PB (p_buf p)) 16384).
  assert (E1 : safe_capacity_bound pl PB (el_size E) p = (Ok (h / fl_size FE), p)).
  { unfold safe_capacity_bound, bind, m_hint; rewrite Hsize.
    replace (fl_size FE =? 0) with false by (symmetry; apply N.eqb_neq; lia). reflexivity. }
  rewrite (bind_eq _ _ _ _ _ _ _ E1).
  assert (Hh : h <= cap).
  { unfold h. destruct (pb_hint PB (p_buf p)) as [x|] eqn:Eh; cbn.
    - exact (ct_hint HC _ _ _ _ Hr Eh).
    - exact (ct_nohint HC _ _ _ Hr Eh). }
  assert (Hb : N.min n (h / fl_size FE) * el_size E <= cap).
  { rewrite Hsize. pose proof (N.mul_div_le h (fl_size FE) ltac:(lia)). nia. }
  destruct (alloc_ok pl cap rep a0 Hcap _ p l pos Hr Hb) as (p1 & E2 & Hs1).
  rewrite (bind_eq _ _ _ _ _ _ _ E2).
  set (body := fun '(n, vec) =>
    if n =? 0 then ret (inr vec)
    else x <- el_parse E PB ;; ret (inl (n - 1, vec ++ [x]))).
  set (sz := fl_size FE) in *.
  enough (G : let '(r, p') := loop body (n, []) p1 in
    if len l <? n * sz
    then r = Err fin /\ step p1 l pos p' [] (pos + len l)
    else r = Ok ([] ++ decode FE (order_of pl (c_endian (p_cfg p))) (take (n * sz) l)) /\
         step p1 l pos p' (drop (n * sz) l) (pos + n * sz)).
  { run G r p'. revert G. destruct (len l <? n * sz); intros [-> G];
      (split; [reflexivity|]); eapply step_trans; eassumption. }
  rewrite <- (st_cfg _ _ _ _ _ _ _ _ _ Hs1).
  pose proof (st_rep _ _ _ _ _ _ _ _ _ Hs1) as Hr1.
  clear Hs1 E2 Hb Hh E1 h Hr p. rename p1 into p, Hr1 into Hr.
  set (Q := fun (x : N * list A) (q : parser S) (res : out (list A) * parser S) =>
    forall l pos, rep (p_buf q) l (a0 + pos) -> wf l ->
    let '(r, p') := res in
    if len l <? fst x * sz
    then r = Err fin /\ step q l pos p' [] (pos + len l)
    else r = Ok (snd x ++ decode FE (order_of pl (c_endian (p_cfg q))) (take (fst x * sz) l)) /\
         step q l pos p' (drop (fst x * sz) l) (pos + fst x * sz)).
  enough (G : Q (n, []) p (loop body (n, []) p)) by (apply (G l pos Hr Hw)).
  apply (loop_rule body (fun k x q => exists l pos, rep (p_buf q) l (a0 + pos) /\ wf l /\ k = len l))
    with (k := len l); [|exists l, pos; auto|apply Hw].
  clear n p l pos Hr Hw.
  intros k [n vec] p (l & pos & Hr & Hw & ->). unfold body at 1.
  destruct (N.eqb_spec n 0) as [->|Hn].
  { cbn [ret]. intros l' pos' Hr' Hw'. cbn [fst snd]. rewrite N.mul_0_l.
    replace (len l' <? 0) with false by (symmetry; apply N.ltb_ge; lia).
    rewrite take_0, drop_0, N.add_0_r, decode_nil, app_nil_r.
    split; [reflexivity|]. now apply step_refl. }
  unfold bind.
  pose proof (Hel p l pos Hr Hw) as H. rewrite f_elem_eq in H by assumption.
  cbn [fe_fin fe_cfg] in H. fold sz in H.
  revert H. destruct (N.ltb_spec (len l) sz) as [H1|H1]; intros H.
  - destruct (H ltac:(constructor)) as (p' & E1 & Hs). rewrite E1.
    intros l' pos' Hr' Hw'. cbn [fst snd].
    pose proof (Hel p l' pos' Hr' Hw') as H'. rewrite f_elem_eq in H' by assumption.
    cbn [fe_fin fe_cfg] in H'. fold sz in H'.
    revert H'; destruct (N.ltb_spec (len l') sz) as [H2|H2]; intros H'.
    + destruct (H' ltac:(constructor)) as (p'' & E1' & Hs'). rewrite E1 in E1'. injection E1' as <-.
      replace (len l' <? n * sz) with true by (symmetry; apply N.ltb_lt; nia). auto.
    + destruct (H' ltac:(constructor)) as (? & ? & ? & _); congruence.
  - destruct (H ltac:(constructor)) as (a & p1 & E1 & Ea & Hs). rewrite E1. cbn [ret].
    exists (len (drop sz l)). split; [rewrite len_drop; lia|]. split.
    { eexists; eexists; split; [apply (st_rep _ _ _ _ _ _ _ _ _ Hs)|]. split; [now apply wf_drop|reflexivity]. }
    intros [res p2] HQ l' pos' Hr' Hw'. cbn [fst snd].
    pose proof (Hel p l' pos' Hr' Hw') as H'. rewrite f_elem_eq in H' by assumption.
    cbn [fe_fin fe_cfg] in H'. fold sz in H'.
    revert H'; destruct (N.ltb_spec (len l') sz) as [H2|H2]; intros H'.
    { destruct (H' ltac:(constructor)) as (? & ? & _); congruence. }
    destruct (H' ltac:(constructor)) as (a' & p1' & E1' & Ea' & Hs').
    rewrite E1 in E1'. injection E1' as <- <-.
    specialize (HQ (drop sz l') (pos' + sz) (st_rep _ _ _ _ _ _ _ _ _ Hs') (wf_drop _ _ Hw')).
    cbn [fst snd] in HQ. rewrite len_drop in HQ.
    revert HQ. destruct (N.ltb_spec (len l' - sz) ((n - 1) * sz)) as [H3|H3]; intros [-> HQ].
    + replace (len l' <? n * sz) with true by (symmetry; apply N.ltb_lt; nia).
      split; [reflexivity|]. replace (pos' + len l') with (pos' + sz + (len l' - sz)) by lia.
      eapply step_trans; eassumption.
    + replace (len l' <? n * sz) with false by (symmetry; apply N.ltb_ge; nia).
      replace (n * sz) with (sz + (n - 1) * sz) by nia.
      rewrite take_plus, decode_app by (fold sz; rewrite ?len_take; lia).
      split.
      { rewrite <- app_assoc. cbn [app]. rewrite Ea'. unfold env_order; cbn [fe_cfg].
        now rewrite (st_cfg _ _ _ _ _ _ _ _ _ Hs'). }
      rewrite <- drop_drop, N.add_assoc. eapply step_trans; eassumption.
Qed.

Lemma Ref_slice : forall n, Ref (srel mem pl FE) (parse_slice pl PB E n) (f_array pl FE n).
Proof.
  intros n p l pos Hr Hw. unfold f_array.
  cbn [fe_cfg fe_fin].
  set (o := order_of pl (c_endian (p_cfg p))) in *. set (sz := fl_size FE) in *.
  assert (G : forall p1, step p l pos p1 l pos ->
    let '(r, p') := (l <- parse_repeated pl PB E n ;; ret (Owned l)) p1 in
    if len l <? n * sz
    then r = Err fin /\ step p l pos p' [] (pos + len l)
    else r = Ok (Owned (decode FE o (take (n * sz) l))) /\
         step p l pos p' (drop (n * sz) l) (pos + n * sz)).
  { intros p1 Hs. pose proof (repeated_spec n p1 l pos (st_rep _ _ _ _ _ _ _ _ _ Hs) Hw) as H.
    fold sz in H. rewrite (st_cfg _ _ _ _ _ _ _ _ _ Hs) in H.
    unfold bind. run H r p'. revert H; destruct (len l <? n * sz); intros [-> H]; cbn [ret];
      (split; [reflexivity|]); eapply step_trans; eassumption. }
  destruct (parse_slice pl PB E n p) as [res pf] eqn:Erun.
  assert (Ep : parse_slice pl PB E n p =
    match (if negb (is_native pl (c_endian (p_cfg p))) then ret None
     else match checked_mul pl n (el_size E) with
       | None => fail (custom_error KInvalidRecord MsgSliceTooLong)
       | Some byte_len =>
           r <- parse_bytes_direct PB byte_len ;;
           match r with
           | None => ret None
           | Some (a, d) =>
               if (a mod word_align pl =? 0) || (len d =? 0)
               then ret (Some (a, map (el_native E) (chunks (el_size E) d)))
               else ret None
           end
       end) p with
    | (Ok (Some (a, l)), p') => (Ok (Borrowed a l), p')
    | (Ok None, p') => (l <- parse_repeated pl PB E n ;; ret (Owned l)) p'
    | (Err e, p') => (Err e, p')
    | (Panic, p') => (Panic, p')
    | (Fuel, p') => (Fuel, p')
    end).
  { match goal with |- _ = match ?D with pair _ _ => _ end => 
      assert (Ed : parse_slice_direct pl PB E n p = D) by reflexivity; rewrite <- Ed end.
    unfold parse_slice. unfold bind at 1.
    destruct (parse_slice_direct pl PB E n p) as [[[[a d]|]|e| |] p']; reflexivity. }
  rewrite Ep in Erun. clear Ep.
  rewrite is_native_order in Erun. fold o in Erun.
  destruct (order_eqb o (pl_host pl)) eqn:Eo; cbn [negb andb] in *.
  - assert (Eo' : o = pl_host pl) by (destruct o, (pl_host pl); discriminate + reflexivity).
    unfold checked_mul in Erun. rewrite Hsize in Erun. fold sz in Erun.
    destruct (N.ltb_spec (usize_max pl) (n * sz)) as [Hov|Hov].
    { replace (n * sz <=? usize_max pl) with false in Erun by (symmetry; apply N.leb_gt; lia).
      cbn [fail] in Erun. injection Erun as <- <-.
      intros _. exists p; split; [reflexivity|]. now apply step_refl. }
    replace (n * sz <=? usize_max pl) with true in Erun by (symmetry; apply N.leb_le; lia).
    pose proof (bytes_direct_spec PB mo fin cap mem rep a0 HC (n * sz) p l pos Hr Hw) as H.
    unfold bind at 1 in Erun.
    destruct l as [|h t].
    { destruct H as (p1 & E1 & Hs). rewrite E1 in Erun. injection Erun as <- <-.
      cbn. intros _. exists p1; auto. }
    remember (h :: t) as l1 eqn:El1.
    assert (Hl1 : 0 < len l1) by (subst l1; rewrite len_cons; lia). clear El1 h t.
    replace (len l1 =? 0) with false by (symmetry; apply N.eqb_neq; lia).
    destruct H as (r & p1 & E1 & H). rewrite E1 in Erun.
    destruct r as [[x d]|].
    + destruct H as (Hn & Hd & Hm & Hx & Hs).
      replace (len l1 <? n * sz) with false by (symmetry; apply N.ltb_ge; lia).
      assert (Hdl : len d = n * sz) by (rewrite Hd, len_take; lia).
      assert (Hdec : map (el_native E) (chunks sz d) = decode FE o d).
      { unfold decode. fold sz. apply map_ext_in. intros y Hy. rewrite Hnat, Eo'; [reflexivity|].
        clear - Hy Hdl Hpos. fold sz in Hpos. revert d Hy Hdl.
        induction n as [|k IH] using N.peano_ind; intros d Hy Hdl.
        - replace d with (@nil N) in Hy by (symmetry; apply len_0; lia). easy.
        - rewrite chunks_cons in Hy by lia. destruct Hy as [<-|Hy].
          + rewrite len_take; fold sz; lia.
          + apply (IH (drop sz d) Hy). rewrite len_drop; lia. }
      intros Hev.
      assert (Hal : (x mod word_align pl =? 0) || (len d =? 0) = true).
      { destruct (N.eqb_spec n 0) as [->|Hn0].
        { apply orb_true_iff; right; apply N.eqb_eq; lia. }
        apply orb_true_iff; left; apply N.eqb_eq.
        cbn [negb] in Hev. inversion Hev as [|? ? He _]; subst. cbn in He.
        unfold word_align. destruct mo; try contradiction; rewrite <- He; now apply mod_align. }
      rewrite Hal in Erun. cbn [ret] in Erun. injection Erun as <- <-.
      exists (Borrowed x (map (el_native E) (chunks sz d))), p1. split; [reflexivity|].
      split; [|assumption]. split; [cbn; now rewrite Hdec, Hd|].
      cbn. exists d. split; [assumption|]. split; [now rewrite Hdec, Eo'|].
      apply orb_true_iff in Hal as [Ha|Ha]; apply N.eqb_eq in Ha; [left; exact Ha|right].
      rewrite Hdec. apply len_0 in Ha. rewrite Ha; reflexivity.
    + destruct H as [_ Hs]. cbn [ret] in Erun. specialize (G p1 Hs).
      rewrite Erun in G.
      revert G; destruct (len l1 <? n * sz); intros [-> G] _.
      * exists pf; auto.
      * eexists; exists pf; split; [reflexivity|]. split; [split; [reflexivity|exact I]|assumption].
  - cbn [ret] in Erun. specialize (G p (step_refl _ _ _ _ _ _ Hr)). rewrite Erun in G.
    revert G; destruct (len l <? n * sz); intros [-> G] _.
    + exists pf; auto.
    + eexists; exists pf; split; [reflexivity|]. split; [split; [reflexivity|exact I]|assumption].
Qed.

End Slices.
